{"id": "C01", "title": "Standard mode strings: exact acceptance grammar", "statement": "rsopen accepts a standard (lower case) mode string exactly when it has no repeated character, uses only x a r w + b t (and U on Python < 3.11, never together with x, w, a or +), names exactly one of x/r/w/a (U standing for r) and does not name both b and t; the resulting stream parameters (readable, writable, append, must-create, must-not-create, erase) depend only on the set of characters, never on their order.", "quantifier": "every string over the whole character set, any length, any order", "why_tests_cant": "The set of strings is infinite and the order-insensitivity ranges over all permutations; tests sample a few spellings.", "anchors": ["src/rsfile/rsfile_factories.py:rsopen", "src/rsfile/rsfile_factories.py:parse_standard_args", "src/rsfile/rsfile_definitions.py:STDLIB_OPEN_FLAGS"]}
{"id": "C02", "title": "Standard/advanced mode equivalence table", "statement": "Each standard mode (in any spelling: any order, with or without b/t) opens the file with exactly the same readable/writable/append/must-create/must-not-create/erase parameters as its documented advanced equivalent: r=RN, r+=RWN, w=WE, w+=RWE, a=A, a+=RA, x=WC, x+=RWC.", "quantifier": "every spelling of the eight standard modes and every spelling of the eight advanced modes", "why_tests_cant": "Equality of two parsers over all spellings, including all permutations, is a universally quantified statement.", "anchors": ["src/rsfile/rsfile_factories.py:rsopen docstring (modes compatibility table)", "src/rsfile/rsfile_factories.py:parse_standard_args", "src/rsfile/rsfile_factories.py:parse_advanced_args"]}
{"id": "C03", "title": "Advanced mode strings: exact meaning and rejections", "statement": "An advanced mode string is accepted exactly when it has no repeated character, uses only R A W + - C N S I E B T, and: asks for at least one of R/W/A; does not require both existence and non-existence; E comes with W or A unless C is given; not both B and T. Each accepted flag has exactly its documented meaning (A implies W, C cancels E, - is C, + is N). Strings mixing cases are rejected.", "quantifier": "every string", "why_tests_cant": "As for C01, the strings are infinitely many; a test lists some, and a parser that mishandles one order of the flags, or a flag given twice, passes it.", "anchors": ["src/rsfile/rsfile_factories.py:rsopen", "src/rsfile/rsfile_factories.py:parse_advanced_args", "src/rsfile/rsfileio_abstract.py:RSFileIOAbstract.__init__"]}
{"id": "C04", "title": "Retro-compatibility of standard modes with the stdlib open()", "statement": "For every lower-case mode string, rsopen accepts it iff the stdlib pure-Python open() accepts it, and then opens the file with the same access, creation, append and truncation behaviour and the same text/binary choice.", "quantifier": "every mode string without U", "why_tests_cant": "The claim is the agreement of two parsers on every string; tests compare them on the dozen usual modes, and the disagreements are on unusual ones.", "anchors": ["src/rsfile/rsfile_factories.py:parse_standard_args", "src/rsfile/rstest/stdlib/_pyio_py312_backup.py:open", "src/rsfile/rstest/stdlib/_pyio_py312_backup.py:__init__"]}
{"id": "C05", "title": "File creation semantics", "statement": "On unix, opening by path: with C / x the open succeeds only if no entry existed and the file is then new and empty; with N / r no directory entry is ever created; otherwise an entry is created iff there was none. An existing file's bytes are never changed by the open system call itself (no O_TRUNC is ever passed).", "quantifier": "every file-system state, path and accepted flag combination", "why_tests_cant": "The outcome depends on what is at the path (nothing, file, link, dangling link, directory) and on what another process does between two system calls; tests start from a clean temporary directory.", "anchors": ["src/rsfile/rsfileio_unix.py:RSFileIO._inner_create_streams", "src/rsfile/rsfile_factories.py:rsopen"]}
{"id": "C06", "title": "Win32 integer codecs round-trip", "statement": "Splitting a non-negative integer below 2^64 into two dwords and joining them back is the identity, both dwords being in [0,2^32); joining then splitting two dwords is the identity; negative integers are rejected; signed/unsigned conversion are mutually inverse on their word ranges, for every word size. Joining accepts signed dwords.", "quantifier": "all integers in range, all word sizes", "why_tests_cant": "There are 2^64 values for each codec and the errors are at the edges of words; the test suite draws one random number per run.", "anchors": ["src/rsfile/rsbackend/_utilities.py:pyint_to_double_dwords", "src/rsfile/rsbackend/_utilities.py:double_dwords_to_pyint", "src/rsfile/rsbackend/_utilities.py:signed_to_unsigned", "src/rsfile/rsbackend/_utilities.py:unsigned_to_signed"]}
{"id": "C07", "title": "Conflict = shared byte", "statement": "Two lock requests on one file conflict inside a process exactly when some byte belongs to both ranges and they are not both shared requests from different handles, where length None/0 means 'to infinity' and ranges may extend beyond end of file.", "quantifier": "all offsets, lengths (incl. infinite), share modes and handles", "why_tests_cant": "A test tries some pairs of ranges; the claim is an equivalence over all pairs of integer ranges, with and without ends, and the mistakes are at the boundaries.", "anchors": ["src/rsfile/rsfile_registries.py:_try_locking_range"]}
{"id": "C08", "title": "Per-process lock table invariant", "statement": "After any sequence of lock/unlock/close/fork operations by any handles, within one process: no two locks granted to the same handle share a byte, and two locks granted to different handles share a byte only if both are shared.", "quantifier": "every finite history of operations, any number of files, handles, ranges", "why_tests_cant": "The table is the result of the whole history of the process; tests visit short histories, with two or three locks, and cannot show that no longer one breaks it.", "anchors": ["src/rsfile/rsfile_registries.py:IntraProcessLockRegistryClass"]}
{"id": "C09", "title": "Unlock is exact (no splitting, merging or stealing)", "statement": "unlock_file releases exactly the one lock with the same owner handle, start and length; if no such lock exists it raises and changes nothing; it never modifies any lock of another handle or range.", "quantifier": "every lock table and every unlock request", "why_tests_cant": "It has to hold for every table and every request that is almost a lock of it (same start, other length, other handle); tests unlock what they have just locked.", "anchors": ["src/rsfile/rsfile_registries.py:_try_unlocking_range", "src/rsfile/rsfileio_abstract.py:unlock_file"]}
{"id": "C10", "title": "Non re-entrancy", "statement": "Locking, through one handle, an area that shares a byte with an area this handle already holds raises RuntimeError whatever the share modes, and changes nothing.", "quantifier": "every lock table and request", "why_tests_cant": "The cases that matter are tables where other handles have shared locks on the same bytes, placed before or after the own lock in the list.", "anchors": ["src/rsfile/rsfile_registries.py:_try_locking_range", "src/rsfile/rsfileio_abstract.py:lock_file", "src/rsfile/rsiobase.py:RSIOBase.lock_file"]}
{"id": "C11", "title": "Exclusive locks are exclusive, across processes, threads and handles", "statement": "At any moment of any execution, two different successful exclusive lock_file() calls that have not yet been unlocked/closed never cover a common byte of the same file, whichever processes, threads and streams made them.", "quantifier": "every interleaving of any number of processes and threads performing open/lock/unlock/close/fork/exit, any number of files and ranges", "why_tests_cant": "The claim is about all schedules of all threads and processes; a test runs one schedule at a time, that the machine chooses, and a race that shows once in a million runs goes unseen.", "anchors": ["src/rsfile/rsfileio_abstract.py:lock_file", "src/rsfile/rsfileio_abstract.py:unlock_file", "src/rsfile/rsfileio_abstract.py:close", "src/rsfile/rsfileio_unix.py:_inner_file_lock", "src/rsfile/rsfileio_unix.py:_inner_file_unlock", "src/rsfile/rsfileio_unix.py:_inner_close_streams", "src/rsfile/rsfile_registries.py:IntraProcessLockRegistryClass"]}
{"id": "C12", "title": "Shared locks exclude writers everywhere", "statement": "At any moment of any execution, a held exclusive lock and a held shared lock never cover a common byte of the same file, whichever processes and handles hold them.", "quantifier": "every interleaving, as C11", "why_tests_cant": "As C11; in particular the failing case needs two overlapping shared locks in one process plus a second process.", "anchors": ["src/rsfile/rsfileio_abstract.py:lock_file", "src/rsfile/rsfileio_unix.py:_inner_file_unlock", "src/rsfile/rsfileio_abstract.py:close"]}
{"id": "C13", "title": "Closing a stream never loses locks of other streams", "statement": "When a stream is closed (or another thread's close purges descriptors), no lock held through any other handle - in this process or another - is lost at kernel level: the fcntl 'close drops all locks' hazard is neutralised.", "quantifier": "every interleaving of closes with locks on the same file", "why_tests_cant": "It needs another stream to lock or unlock between two particular statements of close(), of which tests have no control.", "anchors": ["src/rsfile/rsfileio_unix.py:_inner_close_streams", "src/rsfile/rsfileio_unix.py:_purge_pending_related_file_descriptors", "doc/locking_semantic.rst:Shortage of Open Files (unix)"]}
{"id": "C14", "title": "No residual kernel locks", "statement": "At any quiescent moment of any execution, every byte that the kernel considers locked by a process belongs to a lock still registered through some live stream of that process; after the last unlock/close nothing stays locked.", "quantifier": "every interleaving", "why_tests_cant": "The kernel's locks are those of the whole process, so that what is left over depends on all the streams and on failures in the middle; tests look at one stream that works.", "anchors": ["src/rsfile/rsfileio_abstract.py:lock_file", "src/rsfile/rsfileio_abstract.py:unlock_file", "src/rsfile/rsfileio_abstract.py:close"]}
{"id": "C15", "title": "No lost wake-up", "statement": "A thread blocked inside lock_file(timeout=None) because of another handle of the same process is woken once no conflicting lock is left in the process.", "quantifier": "every interleaving of waiters with unlock_file and close", "why_tests_cant": "A lost wake-up shows as a thread that sleeps for ever in one particular order of the registration, the release and the wait; a test cannot tell it from a slow one.", "anchors": ["src/rsfile/rsfile_registries.py:register_file_lock", "src/rsfile/rsfile_registries.py:_try_unlocking_range", "src/rsfile/rsfile_registries.py:remove_file_locks"]}
{"id": "C16", "title": "Waiter bookkeeping", "statement": "The per-file lock entry a blocked thread waits on is never deleted while it waits, so waking up never fails; the number of recorded waiters always equals the number of threads waiting.", "quantifier": "every interleaving", "why_tests_cant": "The counter is wrong only between the steps of waiting threads, or after one of them has failed; tests do not look at it and cannot stop threads there.", "anchors": ["src/rsfile/rsfile_registries.py:register_file_lock", "src/rsfile/rsfile_registries.py:try_deleting_unique_id_entry"]}
{"id": "C17", "title": "Fork: locks are not inherited", "statement": "After fork, the child owns none of the parent's locks: it can neither release nor weaken them by unlocking or closing the streams it inherited, and the parent's locks keep excluding the child.", "quantifier": "every state at which a fork happens and every later interleaving", "why_tests_cant": "The child may be created at any moment, with any table of locks, and then call anything; a test has one point of fork.", "anchors": ["src/rsfile/rsfile_registries.py:_check_forking", "src/rsfile/rsfileio_abstract.py:close"]}
{"id": "C18", "title": "Descriptor hygiene", "statement": "When every rsfile stream a process opened on a file has been closed, no native descriptor opened for them on that file remains open (zombie descriptors are purged) and no registry entry remains.", "quantifier": "every interleaving of opens, locks, failed locks, unlocks and closes", "why_tests_cant": "A leak of one descriptor in one path of execution is invisible in a test that ends soon after; the claim is about all histories, with all failures.", "anchors": ["src/rsfile/rsfileio_unix.py:_inner_close_streams", "src/rsfile/rsfileio_unix.py:_purge_pending_related_file_descriptors", "src/rsfile/rsfile_registries.py:try_deleting_unique_id_entry"]}
{"id": "C19", "title": "A failed lock attempt leaves no trace", "statement": "If lock_file raises (timeout, enforced timeout, bad arguments, wrong share mode, double locking), the process lock table and the kernel locks are exactly as before.", "quantifier": "every state, argument combination and environment behaviour", "why_tests_cant": "A trace left by a failed attempt is seen only in later calls, of this or other streams, and the attempts fail in many ways (other thread, other process, error of the system, timeout at any turn).", "anchors": ["src/rsfile/rsfileio_abstract.py:lock_file"]}
{"id": "C20", "title": "Timeout semantics of lock_file", "statement": "With timeout=T: it succeeds if the lock is available at one of its attempts made before the deadline; it raises LockingException at the first failed attempt at which at least T seconds elapsed, never earlier, and never RuntimeError; timeout=0 means exactly one attempt. With timeout=None it never raises LockingException; if an enforced timeout is configured it raises RuntimeError at the first failed attempt after that delay; otherwise it keeps waiting.", "quantifier": "all clock behaviours, all sequences of lock availability, all T", "why_tests_cant": "The result depends on the clock and on when others release the range; tests take some delays with tolerance, and cannot show that no timing gives an early or a missing exception.", "anchors": ["src/rsfile/rsfileio_abstract.py:lock_file.check_timeout", "src/rsfile/rsfileio_abstract.py:lock_file"]}
{"id": "C21", "title": "Lock argument validation and default share mode", "statement": "lock_file rejects negative/ill-typed timeouts and lengths, unknown whence, exclusive locks on non-writable streams and shared locks on non-readable streams, before touching any state; by default the lock is exclusive iff the stream is writable; offsets relative to current position or end are resolved at call time.", "quantifier": "all argument values and stream states", "why_tests_cant": "The arguments are of any type and any value and combine with the access rights of the stream; tests try some of each.", "anchors": ["src/rsfile/rsfileio_abstract.py:lock_file", "src/rsfile/rsfileio_abstract.py:_convert_relative_offset_to_absolute"]}
{"id": "C22", "title": "Context manager releases the lock", "statement": "After a 'with stream.lock_file(...)' block, however it is left, the lock taken by it is released.", "quantifier": "every way of leaving the block (normally or by exception), every range", "why_tests_cant": "Both ways out of the block, for every state of the stream and of the table; a test takes one state.", "anchors": ["src/rsfile/rsfileio_abstract.py:_lock_remover", "src/rsfile/rsiobase.py:lock_file"]}
{"id": "C23", "title": "Raw I/O refines a byte array", "statement": "On a regular file, every sequence of raw read/write/seek/tell/truncate/size calls behaves like operations on an in-memory byte array with a cursor, including writes beyond the end (zero gap) and for every pattern of short reads/writes the kernel may choose.", "quantifier": "all operation sequences, data, offsets, short-read/short-write schedules", "why_tests_cant": "Programs are unbounded sequences of calls, and the system may transfer less than asked in each; tests run on a kernel that always transfers everything.", "anchors": ["src/rsfile/rsfileio_abstract.py:read", "src/rsfile/rsfileio_abstract.py:write", "src/rsfile/rsfileio_abstract.py:seek", "src/rsfile/rsfileio_abstract.py:truncate", "src/rsfile/rsfileio_unix.py:_inner_read", "src/rsfile/rsfileio_unix.py:_inner_write"]}
{"id": "C24", "title": "truncate()", "statement": "truncate(n) makes the file exactly n bytes: the first min(n,old) bytes are preserved, bytes added are zeros, the stream position does not move, the returned value is n; negative sizes raise and change nothing; default n is the current position.", "quantifier": "all contents, positions and sizes", "why_tests_cant": "All sizes, positions and contents, below and above the end, for which the file may change under the stream; tests take a few sizes.", "anchors": ["src/rsfile/rsfileio_abstract.py:truncate", "src/rsfile/rsfileio_unix.py:_inner_reduce", "src/rsfile/rsfileio_unix.py:_inner_extend"]}
{"id": "C25", "title": "readall/read(-1) returns everything", "statement": "read(-1)/readall returns exactly the bytes from the current position to end of file and leaves the position at the end, whatever short counts each system call returns.", "quantifier": "all contents, positions, short-read schedules", "why_tests_cant": "Short reads of a regular file do not happen on the machines where tests run, so the loops that deal with them are not exercised.", "anchors": ["src/rsfile/rsfileio_abstract.py:readall", "src/rsfile/rsfileio_abstract.py:read"]}
{"id": "C26", "title": "Append-only writes", "statement": "On unix, every raw write through an append stream adds its bytes after the current end of file and never modifies existing bytes, whatever the stream's position and whatever other streams (in any process) do in between; the file is the concatenation of what was written, in order.", "quantifier": "every interleaving of writes by any number of append streams with any other activity", "why_tests_cant": "The interleavings of the writers are chosen by the system; a test that sees no damage has seen some of them.", "anchors": ["src/rsfile/rsfileio_unix.py:_inner_create_streams", "src/rsfile/rsfileio_unix.py:_inner_write"]}
{"id": "C27", "title": "Closed and access checks have no side effects", "statement": "On a closed stream every operation raises ValueError; reading a non-readable or writing/truncating a non-writable stream raises UnsupportedOperation; in all these cases neither the file nor any position changes. close() is idempotent.", "quantifier": "all streams, operations, states", "why_tests_cant": "Each operation in each state must leave the file, the position, the locks and the buffers as they were: tests check the exception and seldom the absence of effects.", "anchors": ["src/rsfile/rsfileio_abstract.py:_checkClosed users", "src/rsfile/rsfileio_abstract.py:close"]}
{"id": "C28", "title": "Erasure happens only under the lock", "statement": "rsopen with locking never changes the bytes of an existing file unless the whole-file exclusive lock was obtained first; if the lock cannot be obtained, the file's bytes are unchanged and the descriptor is released.", "quantifier": "all file states, other processes' locks, modes, environments", "why_tests_cant": "The claim is that there is no moment, in any schedule, where another process finds its locked file empty; tests cannot place another process between open() and the lock.", "anchors": ["src/rsfile/rsfile_factories.py:rsopen"]}
{"id": "C29", "title": "Wrapping never erases", "statement": "When rsopen wraps an existing descriptor (fileno, handle, integer name or opener), the file is never truncated, whatever the mode.", "quantifier": "all descriptors and modes", "why_tests_cant": "It has to hold of every descriptor, and it is the unusual one (0) that is treated differently by the code.", "anchors": ["src/rsfile/rsfile_factories.py:rsopen"]}
{"id": "C30", "title": "Failed rsopen releases everything", "statement": "If rsopen raises after the file was opened, the stream is closed: no descriptor it opened and no lock it took remains.", "quantifier": "all failure points", "why_tests_cant": "The opening can fail at each of its steps, several of which fail only on exhaustion or by interference; tests have one or two of these failures.", "anchors": ["src/rsfile/rsfile_factories.py:rsopen", "src/rsfile/rsfileio_unix.py:_inner_create_streams"]}
{"id": "C31", "title": "Buffered streams refine a byte array", "statement": "For every buffer size and kernel short-count schedule, any sequence of read/write/seek/tell/flush/peek/truncate calls on a buffered stream returns the same results as on an in-memory byte array with a cursor, and after flush/close the file contains exactly that array.", "quantifier": "all operation sequences, data, buffer sizes, schedules", "why_tests_cant": "Sequences of calls are unbounded and the errors of a buffer show when a transfer, a seek or a write crosses its edges, in combinations that depend on its size and on short transfers.", "anchors": ["src/rsfile/rsfile_streams.py:RSBufferedReader", "src/rsfile/rsfile_streams.py:RSBufferedWriter", "src/rsfile/rsfile_streams.py:RSBufferedRandom", "src/rsfile/rstest/stdlib/_pyio_py312_backup.py:BufferedRandom"]}
{"id": "C32", "title": "No byte lost or duplicated on failing flush", "statement": "If flushing fails part-way (disk full, I/O error), the bytes that reached the file followed by those still buffered are exactly the bytes accepted by write(), so a later successful flush completes the file as if nothing had happened.", "quantifier": "all data, failure points, schedules", "why_tests_cant": "The write may fail at any byte of any flush, and what matters is what the later calls do; tests fail one write, always at the start.", "anchors": ["src/rsfile/rstest/stdlib/_pyio_py312_backup.py:BufferedWriter._flush_unlocked", "src/rsfile/rsfile_streams.py:RSBufferedWriter"]}
{"id": "C33", "title": "Fresh reads after locking", "statement": "After a buffered stream's lock_file() returns, reads return the bytes currently in the file (no stale read-ahead), and everything written before is in the file.", "quantifier": "all buffer states, all modifications by others before the lock is granted", "why_tests_cant": "What the buffer had read ahead before the lock, of any part of the file, and any change another process made in the meantime.", "anchors": ["src/rsfile/rsfile_streams.py:_buffer_forwarder_mixin.lock_file"]}
{"id": "C34", "title": "Writes reach the file before the lock is released", "statement": "Every byte written through a buffered stream while holding a lock is in the file before the lock is released by unlock_file(), by close() or by leaving the lock_file() with-block.", "quantifier": "all write sequences and buffer states", "why_tests_cant": "All states of the buffer and all the ways to release a lock (unlock, context manager, close, end of the block by an exception).", "anchors": ["src/rsfile/rsfile_streams.py:_buffer_forwarder_mixin.unlock_file", "src/rsfile/rsfileio_abstract.py:_lock_remover", "src/rsfile/rsfileio_abstract.py:close"]}
{"id": "C35", "title": "size() counts buffered data", "statement": "size() on a buffered stream returns the length the file will have once everything written so far is flushed.", "quantifier": "all buffer states", "why_tests_cant": "All states: the size depends on the buffered writes beyond the end, on the position and on what other processes did.", "anchors": ["src/rsfile/rsfile_streams.py:_buffer_forwarder_mixin.size"]}
{"id": "C36", "title": "write_to_file / read_from_file round-trip", "statement": "If write_to_file(f, data) returns normally then read_from_file(f, binary) returns exactly data, for every previous content, every buffering value and every short-count schedule; with must_create it fails iff f existed, with must_not_create iff it did not.", "quantifier": "all data, previous contents, buffering values, schedules", "why_tests_cant": "All data and all schedules of short transfers and failures; tests write small constants on a kernel that transfers everything.", "anchors": ["src/rsfile/rsfile_utilities.py:write_to_file", "src/rsfile/rsfile_utilities.py:read_from_file"]}
{"id": "C37", "title": "append_to_file concatenates", "statement": "If append_to_file(f, data) returns normally the new content is the previous content followed by data; n calls concatenate in order, also when done by different lock-respecting processes.", "quantifier": "all data, contents, buffering, schedules, interleavings", "why_tests_cant": "All numbers of writers and all interleavings of their steps; a test runs some at the same time and sees one interleaving.", "anchors": ["src/rsfile/rsfile_utilities.py:append_to_file"]}
{"id": "C38", "title": "sync makes data durable", "statement": "When sync() on a raw or buffered stream, or write_to_file/append_to_file(sync=True), returns normally, the whole content including buffered bytes survives a crash at any later point before the next write; sync never reports success unless one of the kernel flush calls succeeded after the last write.", "quantifier": "all contents, buffer states, crash points, flush-call failures", "why_tests_cant": "The claim is about the contents of the disk after a crash at any moment; tests do not crash the machine.", "anchors": ["src/rsfile/rsfileio_unix.py:_inner_sync", "src/rsfile/rsfile_streams.py:sync", "src/rsfile/rsfile_utilities.py:write_to_file"]}
{"id": "C39", "title": "Thread-safe wrapper serialises calls", "statement": "Two method calls made through a thread-safe stream by different threads never overlap in time.", "quantifier": "all schedules of any number of threads and method calls", "why_tests_cant": "It needs threads switched in the middle of a method; a test runs threads and sees the schedules that the interpreter happens to choose.", "anchors": ["src/rsfile/rsfile_streams.py:RSThreadSafeWrapper"]}
{"id": "C40", "title": "Options", "statement": "set_rsfile_options with an unknown key raises and changes nothing; otherwise exactly the given keys change; get_rsfile_options returns a snapshot; a stream keeps the options in force at its creation.", "quantifier": "all option dictionaries and histories", "why_tests_cant": "The options are global state that any history of calls changes; tests set one option and put it back.", "anchors": ["src/rsfile/rsfile_registries.py:set_rsfile_options", "src/rsfile/rsfile_registries.py:get_rsfile_options", "src/rsfile/rsfileio_abstract.py:__init__"]}
{"id": "C41", "title": "Win32 lock ranges", "statement": "On windows the (low,high,offset) dwords passed to the system for a lock and for its unlock denote exactly the requested byte range, with length 0/None meaning the largest expressible length.", "quantifier": "all lengths and offsets below 2^64", "why_tests_cant": "2^128 combinations of offset and length, with special values that mean infinity.", "anchors": ["src/rsfile/rsfileio_windows.py:_win32_convert_file_range_arguments", "src/rsfile/rsbackend/windows_pywin32.py:LockFileEx"]}
{"id": "C42", "title": "Win32 truncate/extend", "statement": "On windows truncate(n) yields exactly n bytes with zero fill and restores the position.", "quantifier": "all sizes and contents", "why_tests_cant": "The errors are at particular sizes, for instance exact multiples of the block of 8192 zeros, that no test takes.", "anchors": ["src/rsfile/rsfileio_abstract.py:truncate", "src/rsfile/rsfileio_windows.py:_inner_extend", "src/rsfile/rsfileio_windows.py:_inner_write", "src/rsfile/rsfileio_windows.py:_inner_reduce"]}
{"id": "C43", "title": "Incremental newline decoding is chunk-independent", "statement": "Universal-newline decoding of a text returns the same characters however the input is cut into chunks, equals replacing \\r\\n and \\r by \\n, and never splits \\r\\n when not translating.", "quantifier": "all texts and all ways of cutting them", "why_tests_cant": "The claim is about all ways of cutting the input into chunks; an error shows when a pair of characters, or a byte sequence, is cut at one particular place.", "anchors": ["src/rsfile/rstest/stdlib/_pyio_py312_backup.py:IncrementalNewlineDecoder.decode", "src/rsfile/rsfile_streams.py:RSTextIOWrapper"]}
{"id": "C44", "title": "Text round-trip", "statement": "A str written with write_to_file and read back with read_from_file with the same arguments is unchanged.", "quantifier": "all strings, newline arguments", "why_tests_cant": "All strings, newline modes, encodings and ways of cutting the writes; tests use a few lines of text.", "anchors": ["src/rsfile/rsfile_utilities.py:write_to_file", "src/rsfile/rsfile_utilities.py:read_from_file", "src/rsfile/rstest/stdlib/_pyio_py312_backup.py:TextIOWrapper.write"]}
{"id": "C45", "title": "Windows raw I/O refines a byte array", "statement": "On windows, any sequence of raw read/write/seek/tell/size calls on a file behaves like a byte array with a cursor: short counts only shorten results, and a write beyond the end fills the gap with zeros.", "quantifier": "all operation sequences, contents, short-count schedules, contents of newly allocated space", "why_tests_cant": "As for C23, with transfers that the system may shorten, over another system whose tests run only there.", "anchors": ["src/rsfile/rsfileio_windows.py:_inner_read", "src/rsfile/rsfileio_windows.py:_inner_write", "src/rsfile/rsfileio_windows.py:_inner_seek", "src/rsfile/rsfileio_abstract.py:write", "src/rsfile/rsfileio_abstract.py:read"]}
{"id": "C46", "title": "Text reads refine a cursor in the decoded text", "statement": "On a text stream over a regular file, any sequence of read(n), readline(n) and iteration steps returns what a cursor in the decoded text (newlines translated according to the newline argument) would return, for every chunking caused by buffer sizes and short reads; read() returns the whole text and a loop over the stream gives its lines.", "quantifier": "all contents, codecs, newline arguments, operation sequences, buffer sizes, short-read schedules", "why_tests_cant": "All ways of cutting the bytes into chunks, in the middle of characters and line endings, with every sequence of reads.", "anchors": ["src/rsfile/rstest/stdlib/_pyio_py312_backup.py:TextIOWrapper.read", "src/rsfile/rstest/stdlib/_pyio_py312_backup.py:TextIOWrapper.readline", "src/rsfile/rstest/stdlib/_pyio_py312_backup.py:TextIOWrapper._read_chunk", "src/rsfile/rsfile_streams.py:RSTextIOWrapper"]}
{"id": "C47", "title": "tell() and seek() of text streams", "statement": "A position returned by tell() on a text stream, when given to seek() later, brings back exactly the text that was left when tell() was called; tell() only fails in the course of an iteration.", "quantifier": "all contents, codecs, newline arguments, sequences of reads, tells and seeks, buffer sizes, schedules", "why_tests_cant": "The cookie packs the state of the decoder in the middle of characters and of line endings; tests take positions at line starts.", "anchors": ["src/rsfile/rstest/stdlib/_pyio_py312_backup.py:TextIOWrapper.tell", "src/rsfile/rstest/stdlib/_pyio_py312_backup.py:TextIOWrapper.seek", "src/rsfile/rstest/stdlib/_pyio_py312_backup.py:TextIOWrapper._pack_cookie"]}
{"id": "C48", "title": "Text write after read", "statement": "A write() on a text stream open for update that follows a read() puts its bytes at the position that tell() shows.", "quantifier": "all contents and sequences of reads before the write", "why_tests_cant": "The damage depends on how much was read ahead and decoded when the write comes, so on sizes of chunks and buffers relative to the text.", "anchors": ["src/rsfile/rstest/stdlib/_pyio_py312_backup.py:TextIOWrapper.write", "src/rsfile/rsfile_streams.py:RSTextIOWrapper"]}
{"id": "C49", "title": "Text truncate()", "statement": "truncate() without size on a text stream cuts the file at the current position in bytes.", "quantifier": "all contents and positions", "why_tests_cant": "All decoder states and all amounts of text read ahead at the moment of truncate().", "anchors": ["src/rsfile/rstest/stdlib/_pyio_py312_backup.py:TextIOWrapper.truncate"]}
{"id": "C50", "title": "Locking a text stream keeps its place", "statement": "lock_file() and unlock_file() on a text stream keep the place in the text and fail only as the raw stream's methods do.", "quantifier": "all stream states", "why_tests_cant": "All states of the stream: text read ahead, text not yet encoded, buffered bytes, at any place of any text.", "anchors": ["src/rsfile/rsfile_streams.py:_text_forwarder_mixin"]}
{"id": "C51", "title": "Text appends concatenate", "statement": "If append_to_file(f, text) with an encoding returns normally, the file holds the previous text followed by the new one, under the same encoding; n calls concatenate in order, also when done by different lock-respecting processes.", "quantifier": "all texts, encodings, contents, schedules, interleavings", "why_tests_cant": "Encodings with a byte order mark write it or not according to the position at the opening, which another writer may change; tests append to a file nobody else touches.", "anchors": ["src/rsfile/rsfile_utilities.py:append_to_file", "src/rsfile/rstest/stdlib/_pyio_py312_backup.py:TextIOWrapper.__init__", "src/rsfile/rstest/stdlib/_pyio_py312_backup.py:TextIOWrapper.write"]}
{"id": "C52", "title": "Lines of buffered streams", "statement": "On a buffered stream, readline() returns the bytes from the position to the first newline (included) or to the end of the file; readline(n) returns a beginning of that line, at most n bytes; readlines(hint) returns the successive lines; writelines(l) writes the concatenation of l; afterwards the stream behaves as if it had read or written just these bytes.", "quantifier": "all earlier operations, contents, buffer sizes, limits, schedules", "why_tests_cant": "The line may straddle any number of buffer refills of any sizes, with short reads and limits that fall anywhere.", "anchors": ["src/rsfile/rstest/stdlib/_pyio_py312_backup.py:IOBase.readline", "src/rsfile/rstest/stdlib/_pyio_py312_backup.py:IOBase.readlines", "src/rsfile/rstest/stdlib/_pyio_py312_backup.py:IOBase.writelines", "src/rsfile/rsfile_streams.py:RSBufferedReader", "src/rsfile/rsfile_streams.py:RSBufferedRandom"]}
{"id": "C53", "title": "Buffered readinto", "statement": "readinto(b) on a buffered stream fills b with the next bytes of the file, as many as there are; readinto1(b) stores at least one byte unless b is empty or the end of the file is reached; both advance the position by what they stored.", "quantifier": "all earlier operations, contents, buffer and argument sizes, schedules", "why_tests_cant": "The failing cases depend on how much read-ahead is left in the buffer compared with the size of the array given.", "anchors": ["src/rsfile/rstest/stdlib/_pyio_py312_backup.py:BufferedReader._readinto", "src/rsfile/rsfile_streams.py:RSBufferedReader", "src/rsfile/rsfile_streams.py:RSBufferedRandom"]}
{"id": "C54", "title": "The descriptor has the rights asked for", "statement": "A stream opened by path has a new descriptor on the file of that name, with exactly the read, write, append and synchronized flags of the mode, kept by exec if and only if the mode contains I. A descriptor that is wrapped keeps all its flags.", "quantifier": "all modes, names, descriptors, file system states, lock and buffering arguments", "why_tests_cant": "All mode strings, and descriptors opened by others with any rights; tests wrap descriptors they opened with the same mode.", "anchors": ["src/rsfile/rsfileio_unix.py:_inner_create_streams", "src/rsfile/rsfile_factories.py:parse_advanced_args", "src/rsfile/rsfile_factories.py:parse_standard_args"]}
{"id": "C55", "title": "One designation of the file", "statement": "rsopen succeeds only if exactly one of a non-empty path, a descriptor (fileno or integer name) and a handle is given, or an opener without descriptor or handle; otherwise it raises a BadValueTypeError and nothing happens.", "quantifier": "all combinations of arguments", "why_tests_cant": "All combinations of name, handle and fileno, including the falsy values (0 and the empty name) that are taken for absent.", "anchors": ["src/rsfile/rsfileio_abstract.py:__init__", "src/rsfile/rsfile_factories.py:rsopen", "src/rsfile/rsfile_factories.py:parse_standard_args"]}
{"id": "C56", "title": "Creation of files on windows", "statement": "On windows, opening by path: with must_create the opening succeeds only if there was no such file, with must_not_create only if there was one and no file is ever created; otherwise a file is created iff there was none. No existing content changes. The handle has the access, write-through and inheritance flags asked for.", "quantifier": "all file system states, paths, parameters, failures of system calls", "why_tests_cant": "All prior states of the path and all combinations of flags, on a system where the test suite must be run by hand.", "anchors": ["src/rsfile/rsfileio_windows.py:_inner_create_streams", "src/rsfile/rsfileio_abstract.py:__init__"]}
{"id": "C57", "title": "Handles and C descriptors are released on windows", "statement": "On windows, after a stream was opened by path, used (fileno, handle, isatty) and closed, the process has exactly the handles and C descriptors it had before; a failed opening leaves none either.", "quantifier": "all tables, modes, sequences of calls", "why_tests_cant": "A leak shows after thousands of openings, and on one particular path: wrapped handle, failed close, descriptor asked for or not.", "anchors": ["src/rsfile/rsfileio_windows.py:_inner_create_streams", "src/rsfile/rsfileio_windows.py:_inner_close_streams", "src/rsfile/rsfileio_windows.py:_inner_fileno"]}
{"id": "C58", "title": "fileno() on windows", "statement": "On windows fileno() returns a C descriptor of the handle of the stream, the same at each call, and the one given when a descriptor was wrapped.", "quantifier": "all ways of opening, sequences of calls, table states", "why_tests_cant": "All states of the table of C descriptors of the process; tests call fileno() once.", "anchors": ["src/rsfile/rsfileio_windows.py:_inner_fileno", "src/rsfile/rsfileio_abstract.py:fileno"]}
{"id": "C59", "title": "mutual exclusion on windows", "statement": "On windows, in all interleavings of lock, unlock and close calls of one process on its handles with the locking calls of other processes, no byte is covered by a granted lock of one handle and by a lock of another handle on the same file unless both are shared, no handle holds a byte twice, and the locks at the system are those that were granted.", "quantifier": "all call sequences, handles, files, offsets, lengths, lock modes", "why_tests_cant": "Every sequence of calls of the process and of other processes; the wrong cases are at lengths near 2^64, that tests do not use.", "anchors": ["src/rsfile/rsfileio_windows.py:_inner_file_lock", "src/rsfile/rsfileio_windows.py:_win32_convert_file_range_arguments", "src/rsfile/rsfileio_abstract.py:lock_file", "src/rsfile/rsfile_registries.py:_try_locking_range"]}
{"id": "C60", "title": "lock, unlock and close on windows", "statement": "On windows an attempt to lock succeeds exactly when no lock conflicts and otherwise changes no lock; unlock_file succeeds exactly on a range that the handle has locked and gives back that lock only; close gives back all the locks of its handle and none of any other handle.", "quantifier": "all states reachable by calls, all arguments that fit in 64 bits", "why_tests_cant": "Every reachable table of locks and every argument, including ranges without end, that the system treats in its own way.", "anchors": ["src/rsfile/rsfileio_windows.py:_inner_file_lock", "src/rsfile/rsfileio_windows.py:_inner_file_unlock", "src/rsfile/rsfileio_abstract.py:lock_file", "src/rsfile/rsfileio_abstract.py:unlock_file", "src/rsfile/rsfileio_abstract.py:close"]}
{"id": "C61", "title": "the descriptor given to rsopen", "statement": "rsopen given a descriptor with closefd=False leaves it open on its file whether it succeeds or raises, and so does closing the stream; a descriptor on a directory is refused and left open; and a call that raises leaves the caller's descriptor open.", "quantifier": "all argument combinations, descriptors, worlds", "why_tests_cant": "Every argument list and every table of descriptors, including descriptors closed or reused by others in the meantime.", "anchors": ["src/rsfile/rsfileio_abstract.py:__init__", "src/rsfile/rsfileio_abstract.py:close", "src/rsfile/rsfile_factories.py:rsopen", "src/rsfile/rsfileio_unix.py:_inner_close_streams"]}
{"id": "C62", "title": "refused calls of rsopen", "statement": "A call of rsopen refused because of its arguments leaves every file and directory entry as it was; and a call whose mode does not ask for erasure changes no byte of an existing file, whatever its other arguments and whether it fails or not.", "quantifier": "all argument combinations, file systems, system outcomes", "why_tests_cant": "The mistakes are looked at in two stages separated by the opening, locking and erasing of the file; tests of refused calls check the exception and seldom the content of the file afterwards, and the combinations of arguments are too many to list.", "anchors": ["src/rsfile/rsfile_factories.py:rsopen", "src/rsfile/rsfile_factories.py:parse_standard_args", "src/rsfile/rsfile_factories.py:parse_advanced_args", "src/rsfile/rsfileio_abstract.py:lock_file"]}
{"id": "C63", "title": "closed buffered streams", "statement": "On a closed buffered stream every method but close() raises ValueError (or says that the class has no such method), and no method changes the stream, a file, a descriptor or a lock; close() always leaves the stream closed, even when flushing fails.", "quantifier": "all classes of buffered streams, methods and arguments, buffer contents, worlds", "why_tests_cant": "Whether a method looks at the closed state depends on what the buffers hold at that moment: a test that closes a stream with an empty buffer does not see the difference.", "anchors": ["src/rsfile/rstest/stdlib/_pyio_py312_backup.py:BufferedReader.read", "src/rsfile/rstest/stdlib/_pyio_py312_backup.py:_BufferedIOMixin.close", "src/rsfile/rstest/stdlib/_pyio_py312_backup.py:IOBase.readline", "src/rsfile/rsfile_streams.py:_buffer_forwarder_mixin"]}
{"id": "C64", "title": "failing reads of buffered streams", "statement": "When a read on a buffered reader fails with an OSError or would block, no byte is lost: the calls that follow behave as if the failed call had not been made, and the file is unchanged.", "quantifier": "all operation sequences, contents, buffer sizes, schedules of short counts, failures and would-block results", "why_tests_cant": "What a failure leaves behind depends on how many bytes were in the buffer and at which of the system calls of the same read it strikes.", "anchors": ["src/rsfile/rstest/stdlib/_pyio_py312_backup.py:BufferedReader._read_unlocked", "src/rsfile/rstest/stdlib/_pyio_py312_backup.py:BufferedReader._peek_unlocked", "src/rsfile/rsfileio_abstract.py:readall", "src/rsfile/rsfile_streams.py:RSBufferedReader"]}
{"id": "C65", "title": "Calls of a stream touch its own file only", "statement": "A call of a buffered or text stream (reading, writing, seeking, truncating, flushing, syncing) changes nothing but the position of its descriptor and the file that descriptor is open on: no other file, no other descriptor, no name, no lock; it stays on the same file; and the calls of a stream opened for reading only change the bytes of no file at all.", "quantifier": "all stream states (also closed ones or ones whose descriptor was closed behind their back), arguments, failures and short counts", "why_tests_cant": "A frame condition speaks of everything that does not change; tests look at the one file they use, in the states they happen to reach.", "anchors": ["src/rsfile/rsfile_streams.py:RSBufferedReader", "src/rsfile/rsfile_streams.py:RSBufferedWriter", "src/rsfile/rsfile_streams.py:RSBufferedRandom", "src/rsfile/rsfile_streams.py:RSTextIOWrapper", "src/rsfile/rsfileio_abstract.py:RSFileIOAbstract"]}
{"id": "C66", "title": "Locked sections are isolated", "statement": "If all programs write the bytes of a file only under an exclusive lock on them, then for as long as a stream keeps an exclusive lock, each byte of the area is what that stream itself last wrote there, or what it was when the lock was obtained; and for as long as a stream keeps a shared lock, the bytes of the area do not change at all.", "quantifier": "every execution of any number of processes, threads, streams and files, every area, every moment of the locked section, every schedule of writes, byte by byte", "why_tests_cant": "The statement is about all interleavings of the writes of some programs with the locking calls of others, including attempts that fail, streams that are closed, processes that are killed or fork during the section. A test sees one schedule.", "anchors": ["src/rsfile/rsfileio_abstract.py:lock_file", "src/rsfile/rsfileio_abstract.py:unlock_file", "src/rsfile/rsfileio_abstract.py:close", "src/rsfile/rsfileio_unix.py:_inner_file_lock", "src/rsfile/rsfileio_unix.py:_inner_file_unlock", "src/rsfile/rsfile_registries.py:IntraProcessLockRegistryClass"]}
{"id": "C67", "title": "A free lock can be obtained", "statement": "Once no call is in progress anywhere, a lock_file() request with which no granted lock conflicts succeeds at its first attempt, whatever happened before: no leftover of closed streams, abandoned attempts, forks or killed processes stands in the way.", "quantifier": "every history of processes, threads, streams, files, forks, terminations; every stream of every living process; every area", "why_tests_cant": "Leftovers that block a lock appear only after particular histories, and a deadlock in a child process needs a fork at the very moment when another thread is inside unlock_file() or close().", "anchors": ["src/rsfile/rsfileio_abstract.py:lock_file", "src/rsfile/rsfileio_abstract.py:unlock_file", "src/rsfile/rsfileio_abstract.py:close", "src/rsfile/rsfileio_unix.py:_inner_file_lock", "src/rsfile/rsfile_registries.py:_check_forking", "src/rsfile/rsfile_registries.py:remove_file_locks"]}
{"id": "C68", "title": "Buffered streams in append mode", "statement": "On a buffered stream opened in append mode, whatever is read, sought and asked in between, all written bytes end up behind the previous content in the order of the write() calls, and reads return the bytes of that content; failing system calls lose only what write() reported as not taken; tell() counts the pending bytes at the end of the file, and truncate() without argument just after a write changes nothing.", "quantifier": "all contents, sequences of calls, buffer sizes, short counts and failures of the system calls", "why_tests_cant": "The pending bytes are counted from the position of the descriptor, which differs from where they will go only after particular sequences of calls (seek away, write, no flush yet); sequences and buffer sizes are unbounded.", "anchors": ["src/rsfile/rsfile_streams.py:RSBufferedWriter", "src/rsfile/rsfile_streams.py:RSBufferedRandom", "src/rsfile/rstest/stdlib/_pyio_py312_backup.py:BufferedWriter.tell", "src/rsfile/rstest/stdlib/_pyio_py312_backup.py:BufferedWriter.write", "src/rsfile/rstest/stdlib/_pyio_py312_backup.py:BufferedRandom.truncate", "src/rsfile/rsfileio_unix.py:_inner_create_streams"]}
{"id": "C69", "title": "Text positions are byte positions", "statement": "For a text stream with an encoding without decoder state (UTF-8, latin-1) and no carriage returns to translate, tell() always gives the byte position of the text that is left (the size of the file minus the encoded rest), never fails outside iterations, even after seeks; seek() to any byte position at which a character starts works; truncate() without argument cuts the file exactly there, and reset_buffers() changes nothing.", "quantifier": "all contents, plain encodings, buffer sizes, short reads and sequences of read, readline, iteration, tell and seek", "why_tests_cant": "tell() replays the decoder on the last chunk, with a guess in floating point numbers and two loops; which branch is taken depends on chunk boundaries, on characters cut by them, and on the position in the chunk.", "anchors": ["src/rsfile/rstest/stdlib/_pyio_py312_backup.py:TextIOWrapper.tell", "src/rsfile/rstest/stdlib/_pyio_py312_backup.py:TextIOWrapper.seek", "src/rsfile/rstest/stdlib/_pyio_py312_backup.py:TextIOWrapper._read_chunk", "src/rsfile/rstest/stdlib/_pyio_py312_backup.py:TextIOWrapper.truncate", "src/rsfile/rsfile_streams.py:RSTextIOWrapper.reset_buffers"]}
{"id": "C70", "title": "Text written is in the file", "statement": "A text stream that writes behaves, whatever system calls do, as an array of bytes with a cursor (or growing at its end in append mode) and an encoder: every write that returns puts the encoding of its text (with line endings translated) after the previous one and returns the number of characters; a write of a character that the encoding lacks raises ValueError and changes nothing; a failing write takes nothing, all, or the first bytes. After a flush that succeeds, and with line buffering after a write that ends a line, everything is in the file; a new file then holds exactly the encoding of all the text given.", "quantifier": "all codecs, newline arguments, buffer sizes, line buffering or not, append or not, contents, sequences of writes and flushes, and outcomes of system calls", "why_tests_cant": "Text passes through a newline translation, an incremental encoder and a buffer; short writes and errors at any system call leave different parts of it in the file, in the buffer or nowhere. A test sees a few of the schedules.", "anchors": ["src/rsfile/rstest/stdlib/_pyio_py312_backup.py:TextIOWrapper.write", "src/rsfile/rstest/stdlib/_pyio_py312_backup.py:TextIOWrapper.flush", "src/rsfile/rstest/stdlib/_pyio_py312_backup.py:BufferedWriter.write", "src/rsfile/rstest/stdlib/_pyio_py312_backup.py:BufferedWriter._flush_unlocked", "src/rsfile/rsfile_streams.py:RSTextIOWrapper"]}
{"id": "C71", "title": "Closing text streams", "statement": "close() closes a text stream whatever happens; if it raises nothing, all the text taken is in the file. Closing again does nothing. Every other method of a closed text stream raises (ValueError, but for read() of a stream that never could, and for tell() of a stream without position) and touches neither world nor buffer.", "quantifier": "all text streams, states, methods, arguments, and outcomes of system calls", "why_tests_cant": "The flush in close() may fail at any byte, twice (the text layer flushes, then the buffer does), and the stream must be closed all the same; closed streams still have decoded text and read-ahead that could leak.", "anchors": ["src/rsfile/rstest/stdlib/_pyio_py312_backup.py:TextIOWrapper.close", "src/rsfile/rstest/stdlib/_pyio_py312_backup.py:TextIOWrapper.closed", "src/rsfile/rstest/stdlib/_pyio_py312_backup.py:BufferedWriter.close", "src/rsfile/rsfile_streams.py:RSTextIOWrapper"]}
{"id": "C72", "title": "Locked sections are serial", "statement": "Several buffered streams of one process on the same file, and other processes, each doing its reads, seeks, writes and truncates between lock_file() and unlock_file() on the whole file: whatever the interleaving, all results are those of a machine with one content, one cursor per stream and a holder, in which the sections follow each other. No section sees half of another, read-ahead never survives from one section to the next, and once nobody holds the lock everything is in the file.", "quantifier": "all groups of streams, buffer sizes, contents, interleavings of calls and of locking and rewriting by other processes, timeouts", "why_tests_cant": "It is the purpose of the library, and it needs everything at once: the table of locks of the process, the kernel's locks, the flush in unlock_file(), the dropping of read-ahead in lock_file(). Tests with several processes see a few interleavings and do not fail reproducibly.", "anchors": ["src/rsfile/rsfileio_abstract.py:lock_file", "src/rsfile/rsfileio_abstract.py:unlock_file", "src/rsfile/rsfile_streams.py:_buffer_forwarder_mixin.lock_file", "src/rsfile/rsfile_streams.py:_buffer_forwarder_mixin.unlock_file", "src/rsfile/rsfile_registries.py:IntraProcessLockRegistryClass"]}
{"id": "C73", "title": "The mode attribute tells the truth", "statement": "The mode attribute of an open raw stream is a legal standard mode that means the rights of the stream: reading, writing, appending, and whether the file had to be created. After a standard mode it means the same rights as the mode given. On a closed stream it is 'closed'.", "quantifier": "all ways to open a raw stream, all modes", "why_tests_cant": "Programs reopen files from the mode of a stream. The tests look at a few standard modes, not at the combinations that only advanced modes give.", "anchors": ["src/rsfile/rsfileio_abstract.py:mode", "src/rsfile/rsfile_factories.py:parse_standard_args", "src/rsfile/rsfile_factories.py:parse_advanced_args"]}
{"id": "C74", "title": "Monkey patching keeps the meaning of open()", "statement": "After monkey patching, open() and FileIO neither lock nor wait unless asked to, change nothing but the descriptor table and possibly one new file, erase a file only if the mode says 'w' (or 'E'), and leave a file opened with 'w' empty. FileIO refuses text modes before it does anything.", "quantifier": "all arguments, file systems and failures of system calls", "why_tests_cant": "All code of the process, also code that does not know of rsfile, goes through these functions; a lock taken silently or a file erased silently shows up far from here.", "anchors": ["src/rsfile/rsfile_utilities.py:BUILTIN_OPEN_FUNC_REPLACEMENT", "src/rsfile/rsfile_utilities.py:RSFileIOWrapper", "src/rsfile/rsfile_utilities.py:monkey_patch_io_module", "src/rsfile/rsfile_utilities.py:monkey_patch_open_builtin", "src/rsfile/rsfile_factories.py:rsopen"]}
{"id": "C75", "title": "Threads on a one-way buffered stream are serial", "statement": "Threads that read, peek, seek, write, flush or truncate through one buffered reader or one buffered writer without the wrapper (thread_safe=False) get the results, and leave the stream in the state, of the same calls made one after the other in the order in which they returned. So every byte of the file goes to exactly one read, records written are never mixed, and no thread waits for ever.", "quantifier": "any number of threads, scripts of calls, and schedules of their steps; any state of the stream", "why_tests_cant": "Which thread runs when is not under the control of a test; a switch inside a method, between two system calls, almost never happens in one.", "anchors": ["src/rsfile/rstest/stdlib/_pyio_py312_backup.py:BufferedReader", "src/rsfile/rstest/stdlib/_pyio_py312_backup.py:BufferedWriter", "src/rsfile/rsfile_streams.py:RSBufferedReader", "src/rsfile/rsfile_streams.py:RSBufferedWriter"]}
{"id": "C76", "title": "Calls through the thread-safe wrapper are serial", "statement": "Calls of any methods on a wrapped buffered stream of any kind, made by any threads, have the results of a serial execution in the order in which they returned, and leave the stream as it does. No deadlock: some thread can always go on, and no method waits for a lock that it holds itself.", "quantifier": "any kind of buffered stream, any state, any number of threads, scripts and schedules", "why_tests_cant": "The wrapper is what makes streams thread safe by default; the code below it takes further locks in the middle of its methods.", "anchors": ["src/rsfile/rsfile_streams.py:RSThreadSafeWrapper", "src/rsfile/rsfile_streams.py:RSThreadSafeWrapper._secure_call", "src/rsfile/rstest/stdlib/_pyio_py312_backup.py:BufferedRandom"]}
{"id": "C77", "title": "Unwrapped streams are serial for all methods", "statement": "The calls that threads make on one buffered stream opened with thread_safe=False, whatever its kind and the methods, have the results and the effect on files of the same calls made one after the other, in some order.", "quantifier": "all kinds, methods, scripts and schedules", "why_tests_cant": "It needs a thread switch between two particular statements of a method, of each pair of methods.", "anchors": ["src/rsfile/rstest/stdlib/_pyio_py312_backup.py:BufferedRandom", "src/rsfile/rstest/stdlib/_pyio_py312_backup.py:BufferedWriter.tell", "src/rsfile/rstest/stdlib/_pyio_py312_backup.py:IOBase.readline", "src/rsfile/rsfile_streams.py:_buffer_forwarder_mixin.close"]}
{"id": "C78", "title": "A lock request that the system refuses for good is reported", "statement": "A lock request that the system refuses for a reason that no unlocking can remove (a range that begins before the file, a descriptor without the access that this kind of lock needs, a descriptor no longer open) is never granted, and lock_file() raises an exception: it does not wait for ever.", "quantifier": "any stream, arguments that pass the checks of lock_file(), schedule of the other processes and threads, and kind of timeout", "why_tests_cant": "A test can see that a call has not returned yet, not that it never will; and the refusals (no lock table left, range too large) are hard to provoke.", "anchors": ["src/rsfile/rsfileio_abstract.py:RSFileIOAbstract.lock_file", "src/rsfile/rsfileio_unix.py:RSFileIO._inner_file_lock"]}
{"id": "C79", "title": "A lock can be given back with the arguments that took it", "statement": "When lock_file(length, offset, whence) succeeded and the arguments still mean the same bytes, unlock_file(length, offset, whence) succeeds and releases exactly that lock.", "quantifier": "any stream, arguments and state of the locks", "why_tests_cant": "There are as many ranges as triples of arguments, in any state of the locks; tests unlock by absolute offsets.", "anchors": ["src/rsfile/rsfileio_abstract.py:RSFileIOAbstract.lock_file", "src/rsfile/rsfileio_abstract.py:RSFileIOAbstract.unlock_file", "src/rsfile/rsfileio_abstract.py:RSFileIOAbstract._convert_relative_offset_to_absolute"]}
{"id": "C80", "title": "Malformed bytes end a text, they do not change it", "statement": "Over a file whose bytes are not all well-formed, what a text stream returns until the first error is text that stands before the first malformed byte, in order and without gap; a malformed byte is never passed over in silence; and after an error, a seek() to a position given before it, or to the end, makes the stream right again.", "quantifier": "any bytes, any cutting of the file into chunks by buffer sizes and short reads, any sequence of read, readline, iteration, tell and seek, any newline argument", "why_tests_cant": "Whether an error surfaces before or after some text depends on where the chunks end; tests use well-formed files.", "anchors": ["src/rsfile/rsfile_streams.py:RSTextIOWrapper", "src/rsfile/rstest/stdlib/_pyio_py312_backup.py:TextIOWrapper._read_chunk", "src/rsfile/rstest/stdlib/_pyio_py312_backup.py:TextIOWrapper.read", "src/rsfile/rstest/stdlib/_pyio_py312_backup.py:TextIOWrapper.seek"]}
{"id": "C81", "title": "A read that fails loses no text", "statement": "When a read of a text stream fails because of malformed bytes, the text before them that was not returned yet can still be read.", "quantifier": "any bytes, chunks and sequence of operations", "why_tests_cant": "The loss shows only in what a program reads after having handled the error, and the read must fail in the middle of a character or of a chunk.", "anchors": ["src/rsfile/rsfile_streams.py:RSTextIOWrapper", "src/rsfile/rstest/stdlib/_pyio_py312_backup.py:TextIOWrapper._read_chunk", "src/rsfile/rstest/stdlib/_pyio_py312_backup.py:TextIOWrapper.read"]}
{"id": "C82", "title": "Sections stay serial when lock calls wait", "statement": "As C72, with lock_file() calls that do not return at once: they sleep in the registry (Condition.wait), in fcntl or in time.sleep between two attempts, and are woken in any order and as often as one likes while other streams and processes go on. All results are still those of the machine in which the sections follow each other; two streams are never in their sections together unless both are readers, and with nobody in a section everything is in the file.", "quantifier": "all groups of streams, contents, buffer sizes, timeouts, orders of waking up, spurious wake-ups and clock readings, actions of other processes", "why_tests_cant": "The number of orders in which sleepers can be woken between the steps of others is unbounded, and a test cannot choose them.", "anchors": ["src/rsfile/rsfileio_abstract.py:lock_file", "src/rsfile/rsfile_registries.py:register_file_lock", "src/rsfile/rsfileio_unix.py:_inner_file_lock", "src/rsfile/rsfile_streams.py:_buffer_forwarder_mixin"]}
{"id": "C83", "title": "Waiting lock calls are served", "statement": "In the runs of C82: once those that hold the lock have let go and no other process is in the way, some sleeping call gets the lock at its next turn; a call gets it at once if nobody with a conflicting lock holds it or sleeps for it; and without timeout a lock call never fails.", "quantifier": "all states that runs of C82 reach", "why_tests_cant": "It is about what must happen eventually in every reachable state; a test sees that one run did not hang.", "anchors": ["src/rsfile/rsfileio_abstract.py:lock_file", "src/rsfile/rsfile_registries.py:register_file_lock", "src/rsfile/rsfile_registries.py:unregister_file_lock"]}
{"id": "C84", "title": "First come, first served", "statement": "A lock_file() call that arrives while an earlier one sleeps does not get the lock before it.", "quantifier": "all runs of C82", "why_tests_cant": "Unfairness needs a particular order of wake-ups to show, for longer than a test can wait.", "anchors": ["src/rsfile/rsfileio_abstract.py:lock_file", "src/rsfile/rsfile_registries.py:register_file_lock"]}
{"id": "C85", "title": "Locked append-mode logs concatenate", "statement": "Several streams of one process, in append mode on the same file, write between lock_file() and unlock_file(); other processes do the same (lock calls may wait, as in C82). When nobody is in a section, the file is what it was plus the data of all write() calls, in the order of the calls, wherever seek() and reading moved the positions. During a section only its own data is added: what one stream writes in several calls is in one piece.", "quantifier": "all groups of streams, contents, buffer sizes, write sizes, waiting orders, actions of other processes in their own sections", "why_tests_cant": "The order of calls, wake-ups and buffer spills that could interleave two logs is unbounded; a test that finds the log whole says nothing about the next interleaving.", "anchors": ["src/rsfile/rsfileio_abstract.py:lock_file", "src/rsfile/rsfileio_abstract.py:unlock_file", "src/rsfile/rsfileio_unix.py:_inner_write", "src/rsfile/rsfile_streams.py:_buffer_forwarder_mixin"]}
{"id": "C86", "title": "Unlocked append-mode records are not mixed", "statement": "Streams in append mode on one file that write and flush without locks, while other processes append: write() and flush() put whole records at the end of the file, those of each stream in order, and never split a record.", "quantifier": "all numbers of streams, buffer sizes, records, appends of other processes between the calls; short writes of the kernel", "why_tests_cant": "A split record needs a short write and another process just then; tests do not get short writes on regular files.", "anchors": ["src/rsfile/rsfileio_unix.py:_inner_write", "src/rsfile/rsfileio_abstract.py:write", "src/rsfile/rstest/stdlib/_pyio_py312_backup.py:BufferedWriter._flush_unlocked"]}
{"id": "C87", "title": "Append mode never overwrites what others append", "statement": "While threads use a stream opened in append mode (any calls but truncate()), other processes append to the same file between any two system calls: nothing that is in the file is overwritten or removed, and what another process appends stays in one piece right behind what was in the file at that moment. The same is expected of windows, where append mode is emulated by a seek before each write.", "quantifier": "all states of the buffers, call sequences, thread schedules, failures and short counts of the system, appends of other processes at any step", "why_tests_cant": "The window between two system calls of one write() cannot be hit on purpose by a test, and on a quiet machine never is.", "anchors": ["src/rsfile/rsfileio_unix.py:_inner_write", "src/rsfile/rsfileio_windows.py:_inner_write", "src/rsfile/rsfileio_abstract.py:write", "src/rsfile/rstest/stdlib/_pyio_py312_backup.py:BufferedWriter._flush_unlocked"]}
{"id": "C88", "title": "Streams inherited through fork()", "statement": "With a multiprocessing lock in place, processes forked (without exec) may issue atomic calls on the stream they have inherited, and protect several of them by 'with myfile.mutex' (documentation of rsopen). Expected: all calls of all processes act, in order, on one content and one position; what was written before or after the fork is stored once, in whole records.", "quantifier": "all kinds of buffered streams, buffer sizes, numbers of processes and forks, call sequences, short counts of the system", "why_tests_cant": "Needs several processes whose calls are interleaved in a given way; with small files and quick exits every child seems to work, and what is duplicated or skipped depends on buffer boundaries.", "anchors": ["src/rsfile/rsfile_factories.py:rsopen", "src/rsfile/rsfile_streams.py:__init__", "src/rsfile/rsfile_streams.py:_reset_buffers", "src/rsfile/rstest/stdlib/_pyio_py312_backup.py:BufferedReader.read", "src/rsfile/rstest/stdlib/_pyio_py312_backup.py:BufferedWriter.write", "src/rsfile/rstest/stdlib/_pyio_py312_backup.py:_flush_unlocked"]}
{"id": "C89", "title": "unique_id() and times() only ask (windows)", "statement": "unique_id() and times() answer about the file behind the handle and change nothing: the files, the handles and the C descriptors of the process are the same afterwards, however often they are called; unique_id() gives the same pair of positive numbers for the life of the stream, and different pairs for files that the system tells apart.", "quantifier": "all states of the handle and descriptor tables, failures of the system, sequences of queries, both win32 backends", "why_tests_cant": "One call leaves one stray C descriptor that nothing looks at; a test would have to poll thousands of times, on windows, with pywin32 installed.", "anchors": ["src/rsfile/rsfileio_windows.py:_inner_unique_id", "src/rsfile/rsfileio_windows.py:_inner_times", "src/rsfile/rsfileio_windows.py:_win32_error_converter", "src/rsfile/rsfileio_abstract.py:unique_id", "src/rsfile/rsfileio_abstract.py:times", "src/rsfile/rsbackend/windows_pywin32.py:GetFileInformationByHandle", "src/rsfile/rsbackend/windows_ctypes.py:GetFileInformationByHandle"]}
{"id": "C90", "title": "The whole-file helpers work when nothing is in the way, and clean up", "statement": "write_to_file(), append_to_file() and read_from_file() on a regular file (or a name they may create) that nobody has locked, when no system call fails, do return; the file then has exactly the content asked for (all of it when the stream is buffered, even if the system writes in small pieces), and the process has the descriptors and locks it had before.", "quantifier": "all contents, data, buffer sizes, must_create / must_not_create / synchronized / locking / thread_safe settings, all patterns of short reads and writes, all other files, descriptors and locks of the process", "why_tests_cant": "A test sees that one call worked; a descriptor or lock left behind, or a failure that needs an unusual descriptor number or a rare pattern of short writes, goes unseen.", "anchors": ["src/rsfile/rsfile_utilities.py:write_to_file", "src/rsfile/rsfile_utilities.py:append_to_file", "src/rsfile/rsfile_utilities.py:read_from_file", "src/rsfile/rsfile_factories.py:rsopen", "src/rsfile/rsfileio_abstract.py:close"]}
{"id": "C91", "title": "Readers that lock never see half-written files", "statement": "If other processes leave a file in an incomplete state only while they hold an exclusive lock on it, then read_from_file() with locking=True (the default) returns complete contents only (as bytes or as text), however long it has to wait, and append_to_file() adds its data to complete contents only.", "quantifier": "all definitions of complete content, all histories of contents and locks of the other processes during the waits, all timeouts, buffer sizes and short reads", "why_tests_cant": "The half-written state lasts for microseconds in a test; that the content read is the one at the time the lock was granted, not at the time the file was opened, cannot be seen without stopping the other process at the right moment.", "anchors": ["src/rsfile/rsfile_utilities.py:read_from_file", "src/rsfile/rsfile_utilities.py:append_to_file", "src/rsfile/rsfile_factories.py:rsopen", "src/rsfile/rsfileio_abstract.py:lock_file"]}
{"id": "C92", "title": "rsopen() opens exactly what it is asked for", "statement": "When no system call fails and nobody has a lock on the file, rsopen(path, ...) succeeds exactly for the mode strings, arguments and creation flags that make sense together. It then returns a stream with the layers asked for, on a new descriptor with the rights asked for, on the file of that name; the content is kept, or erased if the mode says so; the position is 0, or the end of the file in append mode; with locking the whole file is locked, shared for readers and exclusive for writers; nothing else in the process or the file system changed. If the creation flags do not fit, the error says which way and nothing happened.", "quantifier": "all mode strings, buffer sizes, timeouts and other arguments, all file systems, all other open files and locks", "why_tests_cant": "Tests open a few files with a few modes; there are thousands of mode strings and combinations with the other arguments, and what did not change is never looked at.", "anchors": ["src/rsfile/rsfile_factories.py:rsopen", "src/rsfile/rsfile_factories.py:parse_standard_args", "src/rsfile/rsfile_factories.py:parse_advanced_args", "src/rsfile/rsfileio_abstract.py:__init__", "src/rsfile/rsfileio_unix.py:_inner_create_streams"]}
{"id": "C93", "title": "Permissions of new files", "statement": "On unix the argument permissions of rsopen() applies to new files only: their permission bits are those given without those of the umask, whatever the open mode, and the call that makes the file opens it as asked even if these bits forbid it; files that exist keep theirs. Later calls of the owner succeed exactly if the bits allow what they ask for. With the default, files get the permissions that the open() of python gives them.", "quantifier": "all mode strings, permissions, umasks, sets of existing files", "why_tests_cant": "Tests often run as root, where permissions do not count, or look at one file under one umask; the comparison with the open() of python is not made by any test of the repository.", "anchors": ["src/rsfile/rsfile_factories.py:rsopen", "src/rsfile/rsfileio_unix.py:_inner_create_streams", "src/rsfile/rsfile_utilities.py:BUILTIN_OPEN_FUNC_REPLACEMENT"]}
{"id": "C94", "title": "A pipe between two buffered streams is a queue", "statement": "With a buffered writer at one end of a pipe and a buffered reader at the other, the calls behave as on one first-in-first-out queue of bytes: write() adds what it says it took (everything, or the number of bytes in its BlockingIOError), and read(), read1(), readline(), readinto() and readinto1() take from the front, peek() looks at the front, flush() changes nothing; no byte is lost, doubled or reordered, and no call fails but as documented.", "quantifier": "all interleavings of the calls of the two ends, all buffer sizes, all sizes asked for, all schedules of short reads and writes, would-block answers and failing system calls", "why_tests_cant": "Where the bytes are (the buffer of the writer, the pipe, the buffer of the reader) depends on the sizes and on the moments at which the pipe is full or empty; tests of pipes read what was written in one go.", "anchors": ["src/rsfile/rstest/stdlib/_pyio_py312_backup.py:BufferedReader.read", "src/rsfile/rstest/stdlib/_pyio_py312_backup.py:BufferedReader.peek", "src/rsfile/rstest/stdlib/_pyio_py312_backup.py:BufferedReader._readinto", "src/rsfile/rstest/stdlib/_pyio_py312_backup.py:BufferedWriter.write", "src/rsfile/rstest/stdlib/_pyio_py312_backup.py:IOBase.readline", "src/rsfile/rsfileio_abstract.py:readinto", "src/rsfile/rsfile_streams.py:RSBufferedReader"]}
{"id": "C95", "title": "Lines of text go through a pipe one by one", "statement": "With a text writer at one end of a pipe and a text reader at the other, a line that was flushed (by flush(), or at once with line buffering) is what readline(), or the next turn of an iteration, gives: the whole line, in order, once, whatever was written after it; a text that the encoding refuses is not sent and disturbs nothing.", "quantifier": "all programs of writes, flushes, readline() and next() on both ends, all texts (without carriage returns if the reader translates them), all buffer sizes, all schedules of short reads and writes, all codecs whose encoder and decoder move together, among them utf-8 and latin-1", "why_tests_cant": "Lines and characters are cut anywhere by the buffers and by the system, and the reader decodes chunks of bytes that end in the middle of characters and run into the next lines; the tests send short ASCII lines that arrive in one piece.", "anchors": ["src/rsfile/rstest/stdlib/_pyio_py312_backup.py:TextIOWrapper.readline", "src/rsfile/rstest/stdlib/_pyio_py312_backup.py:TextIOWrapper._read_chunk", "src/rsfile/rstest/stdlib/_pyio_py312_backup.py:TextIOWrapper.write", "src/rsfile/rstest/stdlib/_pyio_py312_backup.py:BufferedReader.read1", "src/rsfile/rstest/stdlib/_pyio_py312_backup.py:BufferedWriter.write", "src/rsfile/rsfile_streams.py:RSTextIOWrapper"]}
{"id": "C96", "title": "The layers of a stream agree on where it is", "statement": "flush() pushes what was written to the system and leaves the raw stream where tell() says that the stream is, as rsiobase.py documents; and a method that a buffered or text stream takes from the layer below through __getattr__ (readall(), read1() of a text stream) acts where the stream is: it gives the bytes that follow what was read, and later writes go where they should.", "quantifier": "all programs of read, read1, peek, write, seek, tell, size, flush and truncate on streams of the three kinds, all file contents, buffer sizes and short transfers", "why_tests_cant": "The positions differ by what was read ahead, which depends on the buffer size and on the sizes of all reads before; no test calls readall() on a buffered stream, and with the default buffer a test file is read at once, so that the bytes lost look like an end of file.", "anchors": ["src/rsfile/rsiobase.py:flush", "src/rsfile/rsfile_streams.py:_buffer_forwarder_mixin.__getattr__", "src/rsfile/rsfile_streams.py:_text_forwarder_mixin.__getattr__", "src/rsfile/rsfileio_abstract.py:readall", "src/rsfile/rstest/stdlib/_pyio_py312_backup.py:BufferedWriter.flush", "src/rsfile/rstest/stdlib/_pyio_py312_backup.py:BufferedRandom.write"]}
{"id": "C97", "title": "Every stream has the documented interface", "statement": "The methods and attributes that rsiobase.py documents for all streams exist on each stream that rsopen() can build (raw, three kinds of buffered streams, text over each, with or without the thread-safe wrapper) and take the documented arguments; the methods that depend on buffered bytes are answered by the stream itself and not by a layer below; each stream can be iterated and used in a with statement like those of the io module.", "quantifier": "all 14 chains of objects that rsopen() builds, all public attributes of their classes; the order of the classes is computed by the C3 rule of Python from the class statements", "why_tests_cant": "Which class answers depends on the method resolution order of a diamond of six classes and on __getattr__ at each layer; a name that is missing from one class is silently taken from the layer below instead of failing.", "anchors": ["src/rsfile/rsfile_streams.py:_buffer_forwarder_mixin", "src/rsfile/rsfile_streams.py:_text_forwarder_mixin", "src/rsfile/rsfile_streams.py:RSBufferedRandom", "src/rsfile/rsfile_streams.py:RSThreadSafeWrapper.__getattr__", "src/rsfile/rsiobase.py:RSIOBase", "src/rsfile/rsfile_factories.py:rsopen"]}
{"id": "C98", "title": "Buffered streams behave the same on windows and on unix", "statement": "A program that uses a buffered stream gets the same results, and leaves the same file, on windows as on unix, although the raw streams are different code over different system calls; hence on windows too a buffered stream is a byte array with a cursor, lines are lines, append mode puts everything at the end in order, and a flush that fails loses nothing.", "quantifier": "all programs of read, read1, peek, readline, readinto, readinto1, write, seek, tell, size, flush and truncate on the three kinds of buffered streams, all contents, buffer sizes, short transfers and failures of system calls", "why_tests_cant": "The tests of one run see one system only; a difference shows for the combinations of buffer state, position and size that reach the two raw implementations with different branches (gap before a write, extension by a multiple of 8192 bytes), and nobody compares two runs.", "anchors": ["src/rsfile/rsfileio_windows.py:RSFileIO._inner_write", "src/rsfile/rsfileio_windows.py:RSFileIO._inner_seek", "src/rsfile/rsfileio_windows.py:RSFileIO._inner_read", "src/rsfile/rsfileio_windows.py:RSFileIO._inner_extend", "src/rsfile/rsfileio_abstract.py:truncate", "src/rsfile/rsfile_streams.py:RSBufferedRandom", "src/rsfile/rstest/stdlib/_pyio_py312_backup.py:BufferedWriter._flush_unlocked", "src/rsfile/rstest/stdlib/_pyio_py312_backup.py:BufferedReader._readinto"]}
{"id": "C99", "title": "Only the documented exceptions come out of streams", "statement": "Opening a stream and calling its methods, with whatever arguments and in whatever order, raises ValueError or TypeError for wrong arguments, RuntimeError for improper workflows and EnvironmentError (or a subclass) for the rest, as doc/index.rst promises: never AssertionError, KeyError or AttributeError, and no loop runs for ever; with right arguments, calls on an open stream raise environment errors only.", "quantifier": "all argument values of rsopen and of the 13 methods of raw streams and 17 of buffered ones, all sequences of calls (closed streams included), all files and pipes, all short counts, failures and would-block answers of the system, all events during waits", "why_tests_cant": "an exception from an assertion deep in the registry or in a loop of pyio needs one combination of a short count, a failing call and a buffer state among infinitely many; a test also cannot show that a loop always ends", "anchors": ["doc/index.rst:exceptions", "src/rsfile/rsfileio_abstract.py:lock_file", "src/rsfile/rsfileio_abstract.py:truncate", "src/rsfile/rsfile_registries.py:add_unique_id_data", "src/rsfile/rsfileio_unix.py:_inner_isatty", "src/rsfile/rstest/stdlib/_pyio_py312_backup.py:BufferedReader._readinto"]}
{"id": "C100", "title": "A forgotten stream is closed", "statement": "A stream that the program no longer refers to, without having closed it, is closed by the interpreter: what its buffers hold is written, its locks are released, its descriptor is closed, with the effect of close() except that exceptions are not seen; and no stream that can still be reached is closed.", "quantifier": "all three kinds of stream with or without thread-safe wrapper, all sets of references that the program keeps, all sets of methods looked up on the wrapper by any number of threads, all orders in which the garbage collector may proceed, all states of the stream and of the file system", "why_tests_cant": "when an object is destroyed depends on the reference graph and on the collector, which tests cannot steer: the test suite disables the stdlib tests about it (rstest/test_rsfile_stdlib.py:87-109) and tests only an unbuffered stream, which has nothing to lose", "anchors": ["src/rsfile/rsfile_streams.py:RSThreadSafeWrapper.__getattr__", "src/rsfile/rsfileio_abstract.py:RSFileIOAbstract.__del__", "src/rsfile/rstest/stdlib/_pyio_py312_backup.py:IOBase.__del__", "src/rsfile/rsfile_factories.py:rsopen"]}
{"id": "C101", "title": "lock_file() on windows waits, and gives up at its timeout", "statement": "On windows, a lock_file() that returns or raises does what a single attempt made at that moment does, whatever the other streams and processes did while it waited: the attempts before it failed and left no trace, LockingException comes at the first turn that reaches the timeout and not before, never without a timeout, and the lock is taken at the first turn where nobody has the range.", "quantifier": "for all histories of lock/unlock/close calls of the process and of others, all calls whose numbers fit in 64 bits, all timeouts and enforced timeouts, and all sequences of sleeps during which streams and processes act on other handles", "why_tests_cant": "The outcome depends on what others do during each sleep and on the clock; the rstest locking tests run two processes with one timing each, and only on the platform at hand, where nothing forces a range the system refuses outright.", "anchors": ["src/rsfile/rsfileio_abstract.py:lock_file", "src/rsfile/rsfileio_windows.py:_inner_file_lock", "src/rsfile/rsfile_registries.py:register_file_lock"]}
{"id": "C102", "title": "detach() hands over the stream below with nothing lost", "statement": "detach() writes what the buffers hold and hands over the stream below, open and usable, at the position where the detached stream was; a detach() that fails leaves the stream attached with what is not written yet; and the detached stream can no longer touch it: it cannot be detached again, and closing or forgetting it has no effect.", "quantifier": "all three kinds of buffered stream after any sequence of calls, with short transfers, and whatever program then uses the raw stream; writers under any failures; text writers with any encoding, newline mode and failures", "why_tests_cant": "The place where the raw stream stands depends on how much was read ahead, so on buffer size, short reads and the calls made before; the tests of the standard library detach fresh streams, or writers.", "anchors": ["src/rsfile/rsfile_streams.py:_buffer_forwarder_mixin", "src/rsfile/rsfile_streams.py:_text_forwarder_mixin", "src/rsfile/rstest/stdlib/_pyio_py312_backup.py:detach"]}
{"id": "C103", "title": "Appending without any lock loses, repeats or reorders nothing", "statement": "Any number of threads can write to one stream in append mode, and other processes append to the same file meanwhile, with no lock taken by anyone: the file is always its former content followed by the bytes of the threads and those of the others, each in their order; the bytes of the threads in the file, followed by those waiting in the buffer, are exactly the ones that the calls said they took, in the order in which the calls returned; and a flush() that succeeds leaves none waiting.", "quantifier": "every kind of buffered stream and buffer size, any number of threads, any calls but truncate() and close(), every schedule of their steps (at most one system call each), appends of others between any two steps, system calls that fail or transfer less than asked at any moment", "why_tests_cant": "The order of the steps of threads, the appends of other processes in between and the failures are all outside the control of a test; a byte lost in one of the schedules would not be seen in the others.", "anchors": ["src/rsfile/rsfileio_abstract.py:write", "src/rsfile/rsfileio_abstract.py:flush", "src/rsfile/rsfileio_unix.py:_inner_write", "src/rsfile/rstest/stdlib/_pyio_py312_backup.py:BufferedWriter", "src/rsfile/rstest/stdlib/_pyio_py312_backup.py:BufferedRandom"]}
{"id": "C104", "title": "Closing a stream while threads use it never reaches another file", "statement": "While any number of threads use one stream, one of them, or several, may close it; the rest of the process may open other files, which get the number of the descriptor just closed. No call of any thread then touches another file: the descriptors of the other files stay open and where they are, and their bytes stay the same. For writers, and for every kind of stream in the thread-safe wrapper.", "quantifier": "raw streams and every kind of buffered stream, with and without thread-safe wrapper, any number of threads with any calls of read, write, seek, tell, truncate, flush, size and close, every schedule of their steps (the test whether the stream is closed and the system call are two of them), anything the rest of the process does with other files in between", "why_tests_cant": "The window is between a test of a flag and the system call after it, and the descriptor has to be given out again within it; a test would have to stop two threads at chosen instructions, for every pair of methods.", "anchors": ["src/rsfile/rsfileio_abstract.py:close", "src/rsfile/rsfileio_abstract.py:read", "src/rsfile/rsfileio_abstract.py:seek", "src/rsfile/rsfileio_unix.py:_inner_close_streams", "src/rsfile/rstest/stdlib/_pyio_py312_backup.py:BufferedReader", "src/rsfile/rstest/stdlib/_pyio_py312_backup.py:BufferedWriter", "src/rsfile/rstest/stdlib/_pyio_py312_backup.py:BufferedRandom", "src/rsfile/rsfile_streams.py:RSThreadSafeWrapper"]}
{"id": "C105", "title": "Waiting for a lock does not hold up the one who has it", "statement": "Users of thread-safe streams (processes that inherited one through fork(), threads with streams that were given one mutex, streams with a mutex each) lock bytes of files, make calls and unlock them. They are never stuck: whatever has happened so far, all of them can still finish.", "quantifier": "any number of users, any sharing of mutexes and files, any ranges and share modes, any schedule of the steps, locks given back with unlock_file() or by the context manager", "why_tests_cant": "A deadlock shows only in the schedules in which one process asks for the lock while another has it, and then as a test that never ends.", "anchors": ["src/rsfile/rsfile_streams.py:RSThreadSafeWrapper", "src/rsfile/rsfile_streams.py:_buffer_forwarder_mixin", "src/rsfile/rsfile_factories.py:rsopen", "src/rsfile/rsfileio_abstract.py:lock_file", "src/rsfile/rsfileio_abstract.py:unlock_file"]}
{"id": "C106", "title": "An interrupted lock_file() leaves no trace", "statement": "If a signal handler raises an exception (KeyboardInterrupt, the exception of an alarm) while lock_file() runs, the exception comes out of lock_file(), and the process is as before the call: no lock recorded in the registry, no kernel lock gained, nobody counted as waiting.", "quantifier": "any stream, area, share mode, timeout and options, any moment of the interruption, any number of interruptions, any behaviour of other streams and processes and any failure of system calls before", "why_tests_cant": "Ctrl-C and alarms strike precisely while lock_file() waits; what they leave behind shows later, as a file that cannot be locked any more, in a place that has nothing to do with the interruption.", "anchors": ["src/rsfile/rsfileio_abstract.py:lock_file", "src/rsfile/rsfile_registries.py:register_file_lock", "src/rsfile/rsfile_registries.py:unregister_file_lock", "src/rsfile/rsfileio_unix.py:_inner_file_lock"]}
{"id": "C107", "title": "Interrupted writes lose nothing and repeat nothing", "statement": "A program writes to a buffered stream in append mode; a signal handler may raise an exception (KeyboardInterrupt) at any instruction of write() and flush(), and the program goes on. What is in the file and in the buffer is exactly what the calls took, in order: the bytes of the calls that returned, and all or none of the bytes of a call that was interrupted.", "quantifier": "any calls, data and buffer size, any instructions at which handlers raise, any number of interruptions, system calls that fail or write less than asked", "why_tests_cant": "A log writer stopped by Ctrl-C or by an alarm still flushes when it closes; a record written twice is seen, if at all, by the one who reads the log.", "anchors": ["src/rsfile/rstest/stdlib/_pyio_py312_backup.py:BufferedWriter._flush_unlocked", "src/rsfile/rstest/stdlib/_pyio_py312_backup.py:BufferedWriter.write", "src/rsfile/rsfile_streams.py:RSBufferedWriter"]}
{"id": "C108", "title": "Forked children and signal handlers can use a stream at any moment", "statement": "A child process forked while other threads of its parent are in calls on a buffered stream can make calls on the stream it inherits; so can a signal handler (or destructor) that the interpreter runs on top of an unfinished call. Every such call returns, with the result it has after the calls made before. The wrapper's multiprocessing.RLock() is documented to make streams opened with 'I' usable in children, and both of its mutexes are recursive.", "quantifier": "all kinds of buffered streams, all three wrappings (none, threading.RLock, multiprocessing.RLock), any number of threads, any schedule up to the fork or signal, any calls afterwards", "why_tests_cant": "The fork or the signal must fall inside a call of another thread or of the interrupted one: a window of microseconds for small writes, and the result is a process that hangs without an error.", "anchors": ["src/rsfile/rsfile_streams.py:RSThreadSafeWrapper.__init__", "src/rsfile/rsfile_streams.py:RSThreadSafeWrapper._secure_call", "src/rsfile/rsfile_factories.py:rsopen", "src/rsfile/rstest/stdlib/_pyio_py312_backup.py:BufferedWriter.write", "src/rsfile/rstest/stdlib/_pyio_py312_backup.py:BufferedReader.read"]}
{"id": "C109", "title": "Interrupted reads lose nothing, repeat nothing and keep the order", "statement": "A program reads a file through a buffered reader; a signal handler may raise an exception (KeyboardInterrupt) at any instruction of read(), read1() and peek(), and the program goes on. What the calls that return hand over is the file, in order, from where it began: no byte twice, none left out, and b'' only at the end.", "quantifier": "any file, position, buffer size, sequence of read(n), read(), read1() and peek() calls, any instruction of each call at which a handler raises, any short reads and failures of the system", "why_tests_cant": "The exception must arrive between two given statements; most interruptions fall into the system call and leave the buffer in order.", "anchors": ["src/rsfile/rstest/stdlib/_pyio_py312_backup.py:BufferedReader._read_unlocked", "src/rsfile/rstest/stdlib/_pyio_py312_backup.py:BufferedReader._peek_unlocked", "src/rsfile/rstest/stdlib/_pyio_py312_backup.py:BufferedReader.read1", "src/rsfile/rsfileio_abstract.py:readall", "src/rsfile/rsfileio_abstract.py:read"]}
{"id": "C110", "title": "An interrupted close() does no harm and can be completed", "statement": "A signal handler may raise an exception (KeyboardInterrupt) at any instruction of close() of a raw stream, and the program goes on. Other files and the locks of other streams on the same file are not affected; when close() is then called again, the descriptor and the locks of the stream are released, and no descriptor that another file got meanwhile is closed.", "quantifier": "any stream on a descriptor, any locks and pending descriptors, any instruction at which a handler raises, any failures of the unlock calls", "why_tests_cant": "close() is called from __exit__ and from finally clauses, which is what runs when Ctrl-C was pressed; a descriptor that stays open keeps the file locked for other processes, and closing a number twice closes somebody else's file", "anchors": ["src/rsfile/rsfileio_abstract.py:close", "src/rsfile/rsfileio_unix.py:_inner_close_streams", "src/rsfile/rsfileio_unix.py:_purge_pending_related_file_descriptors", "src/rsfile/rsfileio_unix.py:_inner_file_unlock", "src/rsfile/rstest/stdlib/_pyio_py312_backup.py:IOBase.close"]}
{"id": "C111", "title": "An interrupted unlock_file() can be made up for", "statement": "A signal handler may raise an exception (KeyboardInterrupt) at any instruction of unlock_file() of a raw stream, and the program goes on. The locks of other streams and of other processes are not affected. Either nothing happened, or the lock is released; the same call made again, or close(), releases it at the latest.", "quantifier": "any stream, any locks and pending descriptors, any area, any instruction at which a handler raises", "why_tests_cant": "unlock_file() is what the exit of 'with f.lock_file()' calls; a lock that the registry has forgotten and the system has not keeps other processes out without any way to see why", "anchors": ["src/rsfile/rsfileio_abstract.py:unlock_file", "src/rsfile/rsfileio_unix.py:_inner_file_unlock", "src/rsfile/rsfileio_unix.py:_purge_pending_related_file_descriptors", "src/rsfile/rsfile_registries.py:unregister_file_lock"]}
{"id": "C112", "title": "An interrupted opening leaks no descriptor and costs nobody a lock", "statement": "If a signal handler raises an exception (KeyboardInterrupt, the exception of an alarm) while a raw stream is being opened by path, the descriptor that open(2) may have returned is closed again, at once or when the locks of other streams of the process on the file are released; no other descriptor is closed, and no lock of this or another process is lost.", "quantifier": "any path, mode and options, any instruction at which the handler raises, any other streams, locks and pending descriptors of the process on the same file", "why_tests_cant": "A leaked descriptor does no harm until much later, when the process has none left or when some unrelated close() releases its locks; the instruction where it leaks is a few microseconds wide.", "anchors": ["src/rsfile/rsfileio_unix.py:_inner_create_streams", "src/rsfile/rsfileio_unix.py:_inner_close_streams", "src/rsfile/rsfileio_abstract.py:__init__", "src/rsfile/rsfileio_abstract.py:close"]}
