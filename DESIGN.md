# DESIGN - machine-checked model of pakal/rsfile (Rocq/Coq 8.16.1)

Source of truth: `/repo/src/rsfile` (Python). It is read as text and never run.
Development: `/verif/rocq/theories` (logical name `Verif`).
English properties: `properties.jsonl`; status per property: `MANIFEST.json`;
mutation tests of the theorems: `seeded/LOG.jsonl`.

## 1. Method

* *Shallow, executable models.* Each Python function becomes a total Gallina
  function with the same branches in the same order; exceptions are values
  (`exn` in M_Base). Every definition cites the file and lines it models, and says
  what it leaves out.
* *The outside is data.* Kernel objects (files, descriptors, POSIX record locks,
  dirty data; on windows handles and C descriptors) are explicit. Everything the
  system may choose (short counts, failures, new numbers, clock readings, what other
  processes do during a wait) is a list stored in the world, and theorems quantify over
  the worlds, hence over the lists. Codecs are parameters with a stated contract, proved
  for concrete codecs. There are no axioms.
* *Loops* take fuel; running out of it is a separate outcome (`EHang`), which
  theorems either exclude or mention.
* *Concurrency = transition functions.* `step : state -> action -> option state`;
  an execution is a list of actions; theorems quantify over all lists.
* *Files.* `M_*.v`: definitions only (the model). `S_*.v`: specification
  vocabulary, independent of the model helpers. `P_*.v`: lemmas. `C_*.v`: the final
  statements, an `Example` of a non-trivial case for each, and `Print Assumptions`.
* *Findings.* If a property is false of the code, the statement is kept in
  `properties.jsonl`, a `..._refuted` theorem gives a concrete counter-execution checked by
  computation, and the largest true part found is proved with suffix `_partial`
  (a note in MANIFEST.json says what is missing). The claim then has status "partial".

## 2. What is modelled

Paths are relative to `/repo/src/rsfile`. "pyio" is the pure-Python io module on which
rsfile builds its streams (`rsfile_definitions.py:26`); it is read in the copies shipped in
`rstest/stdlib/_pyio_py312_backup.py` (`_pyio_py39_backup.py` for readlines and writelines).

| file | models | from |
|---|---|---|
| M_Base | exceptions as values, result type | - |
| M_Util | double-word and sign codecs, winerror map | rsbackend/_utilities.py |
| M_Modes | both mode grammars, argument checks, the parser of the standard `open` | rsfile_factories.py, rsfileio_abstract.py `__init__`, pyio |
| M_Registry | the table of the locks of a process | rsfile_registries.py |
| M_Kernel | POSIX record locks | contract of fcntl(2) |
| M_LockSys | processes x threads x streams running lock_file, unlock_file, close, open, fork and exit, interleaved at each registry critical section, wait and system call | rsfileio_abstract.py, rsfileio_unix.py, rsfile_registries.py |
| M_World | one process: descriptors, files, pipes, directories, dirty data, oracles | contract of open, read, write, lseek, ftruncate, fsync, fcntl, close |
| M_Raw | the unbuffered stream on unix, all methods, with the lock loop and its timeouts | rsfileio_abstract.py, rsfileio_unix.py |
| M_Open | rsopen from arguments to stream: creation, locking, erasing, buffers | rsfile_factories.py |
| M_Buffered | RSBufferedReader, RSBufferedWriter, RSBufferedRandom | rsfile_streams.py:33-74, 122-143, pyio |
| M_BufLines | readlines, writelines | pyio |
| M_Files | read_from_file, write_to_file, append_to_file for bytes | rsfile_utilities.py |
| M_Newline | the incremental newline decoder | pyio |
| M_Text | RSTextIOWrapper | rsfile_streams.py:77-114, 146-147, pyio |
| M_TextFiles | the three helpers for text | rsfile_utilities.py |
| M_Options | set_rsfile_options and get_rsfile_options, with dictionaries as mutable objects | rsfile_registries.py:6-62 |
| M_Wrapper | RSThreadSafeWrapper under any schedule | rsfile_streams.py:150-203 |
| M_Windows | read, write, seek, extend, truncate on windows | rsfileio_windows.py, rsbackend/windows_ctypes.py |
| M_WinHandles | opening and closing on windows: handles and C descriptors | rsfileio_windows.py:80-213, 279-306 |
| M_WinInfo | unique_id() and times() on windows with both backends, on the tables of M_WinHandles | rsfileio_windows.py:242-277, 308-327, windows_pywin32.py:61-95, windows_ctypes.py:98-106 |
| M_Fork | a buffered stream inherited through fork() | rsfile_factories.py:72-81, 236-238, rsfile_streams.py:158-168 |
| M_Threads | the methods of the buffered streams and the wrapper in single steps, any number of threads | pyio, rsfile_streams.py:150-203 |
| M_Racing | the same methods when threads close the stream: test and system call are two steps | pyio, rsfileio_abstract.py:207-227, 335-454 |
| M_Mutexed | who has the mutex of the wrapper and who has locked what, during lock_file() | rsfile_streams.py:51-57, 169-171, rsfile_factories.py:74-84, rsfileio_abstract.py:527-638 |
| M_Interrupt | lock_file() when a signal handler raises: in its waits, before its `try`, after lockf | rsfileio_abstract.py:592-638, rsfile_registries.py:173-195 |
| M_IntWrite | write() and flush() of a buffered writer, instruction by instruction, when a handler raises | pyio:1249-1303 |
| M_LeftAlone | what a child forked in the middle of calls, and a signal handler on top of one, find of a stream's locks | rsfile_streams.py:162-172; pyio:12, 1048, 1244 |
| M_IntRead | read(), read1() and peek() of a buffered reader, instruction by instruction, when a handler raises | pyio:1053-1158; rsfileio_abstract.py:354-370 |
| M_IntClose | close() of a raw stream, instruction by instruction, when a handler raises | rsfileio_abstract.py:207-227, rsfileio_unix.py:46-60, 144-153, 294-303; pyio:390-400 |
| M_IntUnlock | unlock_file() of a raw stream, instruction by instruction, when a handler raises | rsfileio_abstract.py:640-662, rsfile_registries.py:197-203 |
| M_IntOpen | opening a raw stream, instruction by instruction, with the object under construction, when a handler raises | rsfileio_abstract.py:70-195, rsfileio_unix.py:64-141 |
| M_Waiting | lock_file() cut into turns between two sleeps | rsfileio_abstract.py:534-638, rsfileio_unix.py:274-289 |
| M_Patch | the mode attribute, and what replaces open() and FileIO after monkey patching | rsfileio_abstract.py:266-294, rsfile_utilities.py:8-38 |
| M_Pipes | two buffered streams at the ends of a pipe | rsfile_streams.py:124-143, pyio |
| M_TextPipe | two text streams at the ends of a pipe | rsfile_streams.py:77-114, pyio |
| M_Layers | the methods that a stream takes from the layer below | rsfile_streams.py:67-72, 107-112 |
| M_Attrs | the classes of the streams, their attributes, the order in which they are searched | rsfile_streams.py, rsfileio_abstract.py, pyio |
| M_WinBuffered | the buffered streams over the windows raw stream | rsfile_streams.py:33-74, 122-147, pyio over rsfileio_windows.py |
| M_Perms | the permissions of new files on unix | rsfile_factories.py:206-276, rsfileio_unix.py:76-123 |
| M_WinSteps | write() in append mode on windows, one system call at a time | rsfileio_windows.py:388-420 |
| M_Drop | which objects refer to which, reference counts, the garbage collector, destructors | rsfile_streams.py:150-203, rsfile_factories.py:277-341, pyio:407-430 |
| M_Detach | detach(), and what is left of the stream | pyio:407-430, 824-838, 2431-2437 |
| M_WinLocks | one attempt of locking, unlocking, close on windows | rsfileio_windows.py:425-478 |
| M_WinWait | lock_file() on windows with its waiting loop | rsfileio_abstract.py:534-636, rsfileio_windows.py:443-466 |

## 3. Plan per property

Modes, arguments, codecs
* C01-C04: M_Modes. The parser is shown to depend only on membership and absence of
  duplicates; then case analysis on membership. The set of meanings is S_Modes.
* C06, C41: linear arithmetic over Z with division and modulo. C06 is false for joining
  signed words.
* C54, C55, C61, C62: M_Open; the arguments are followed through the whole of
  rsopen; what is unchanged is stated on the world (files, descriptors, inheritable flags).

Locks on unix
* C07-C10: M_Registry; invariant by induction over histories of calls.
* C11-C18: M_LockSys; one inductive invariant (soundness of the table, kernel locks
  included in it, exclusive locks covered by kernel locks, ranges being released,
  ownership of descriptors, numbers of waiters), preserved by every action (P_LockInv to
  P_LockMain). C12, C13, C15, C18 are false in full: refuted by runs, proved under the exact
  missing hypothesis.
* C66, C67: corollaries of the invariant. C66 adds the bytes of the files to the system (S_Isolation),
  with events that write a byte at any moment under an exclusive lock; C67 runs one request from an idle state,
  and follows a child that inherits a mutex in use.
* C19-C22: the loop of M_Raw with clock and waits; induction over the oracle of the
  environment.
* C78, C79: the same loop; a request that fcntl refuses for good never leaves the loop with success, by induction
  over the events; the outcomes then follow from those of C20.  C79 is C22's release at the resolved offset.

Raw streams on unix
* C05: os.open in M_World; case analysis over file-system states.
* C23-C27: refinement of a byte array with a cursor, stated pointwise (S_Bytes,
  S_Raw), by induction over operation sequences.
* C28-C30: M_Open, composition.

Buffered streams
* C31-C35, C52, C53: an abstraction function from buffers and descriptor position to the
  byte array; loops by induction with the short-count oracle (P_Buffered, P_BufOps, P_BufRun, P_BufLine).
* C68: append mode. The relation of C31 holds with the place where pending bytes will go (`epos`)
  instead of the position of the descriptor; their difference is what tell() is wrong by. C_AppendLock
  says C33, C34, C35, C38, C52 and C53 of these streams with the same relation.
* C63: closed streams; case analysis over the methods in every state.
* C64: what a read that fails leaves behind: the stream is at a known place, or lost.
* C94: M_Pipes; the bytes in the reader, in the pipe and in the writer form one queue, and each method of either end moves it
  as it must.  The loops end because each turn takes a byte out of the pipe.
* C95: M_TextPipe; the invariant is that the characters decoded, the bytes readable now and those still with the writer
  decode to the text under way, the text that was flushed being within reach of the reader without a further write. The
  decoder and the newline decoder are those of C46.
* C96: the relation of C31 gives the place of the raw stream: that of the stream plus what was read ahead.  M_Layers adds
  the methods that __getattr__ takes from the layer below.
* C97: tables and computation.  M_Attrs has the class statements as data, the C3 rule as a function, and the chains of objects
  that rsopen() builds; the theorems are finite checks made into quantified statements.
* C98: a simulation.  The buffered functions are written a second time over the windows raw stream; related states give the same
  result and related states, call by call, since the raw calls do (P_WinBuffered).  Every windows state has a unix twin, so that C31,
  C32, C52, C53 and C68 hold of windows too.  truncate() is the exception: it is only related when all transfers are full, and not
  when windows fails its assertion.
* C99: a weakest-precondition calculus (`wp` of P_Raises): every call keeps positions non-negative and raises only exceptions of
  a given set.  The loops need a measure: what the descriptor can still deliver, what is read ahead and what is to be written.
  It never grows, and every turn but the last lowers it, so the bounds on loops used everywhere in the model are never reached.
* C100: a graph of at most five kinds of objects. Reference counting and the collector are computed on it; an object that an
  unbroken path of references leads to from the program is never destroyed, and once a stream is closed the destructors left do
  nothing. The order of the collector is a parameter (any permutation); CPython's, the order of creation, is the one that loses data.
* C103: the steps of M_Threads with appends of others in between.  While a thread holds _write_lock, a number says how many bytes
  of the buffer are already in the file (the time between the system call and `del self._write_buf[:n]`) and a list says what the call
  has taken so far; a predicate on programs (`okp`) says that every step keeps this account.  Nothing is claimed of what reads return:
  the bound on the loops of read() is the size of the file at the beginning of the call, and the file can grow meanwhile.
* C104: one lock (the writer's, or the mutex of the wrapper) keeps the threads apart.  A predicate on programs says what a step may do
  with and without it: the thread that holds it knows the stream, and that the descriptor is that of the file as long as the stream is not
  closed; a thread without it may only make calls that ask (tell, size), or, for the weaker statement on streams for reading and
  writing, that move positions.  The rest of the process is a relation on worlds: it leaves the file's own descriptors alone.  The
  release of the locks and of the descriptor in close() is one step (it is made under the mutex of the registry), and so are the loops of
  readall() and of one truncate().
* C105: a small machine: which stage of its piece of work each user is in tells what it holds.  One holder per mutex is an invariant; who
  waits for a mutex is then led to its holder, who can go on unless it waits for a lock itself, and that one to the holder of the lock,
  who has its mutex already or shares it with nobody.  A number of steps left goes down with each step, so that all of them can finish.
  Grants of locks are those of C83; users hold one lock at a time.
* C106: the turns of C82 with a cut after register_file_lock and after lockf.  The invariant of C19 says, for each phase in which the
  call can wait, what is recorded; an interruption leaves the phase as it is (registry) or goes through `finally` (kernel).
* C107: each call runs with a countdown of instructions; the account of C103 (file, buffer, bytes taken) is kept by each instruction
  but one, where it is kept up to the repetition of a piece.  With instructions to spare the calls are those of M_Buffered.
* C108: a single thread on copied locks is deterministic, so a call hangs exactly when `solo` finds a taken lock; the method-by-method table of who waits (`waits`) is proved exact for readers and writers
* C109: a rule per instruction for `whatever the countdown`; invariant: what was handed over, then the local chunks or the buffer, is
  a subsequence of what the raw stream has delivered. Lengths as in the code, where _read_pos may exceed the buffer.
* C110: `agree`: a call whose countdown has not run out is the call of M_Raw; `inv`: an invariant of the world that every step keeps is kept
  wherever the call is cut, used twice (which descriptors may be closed; while others have locks nothing is closed); `C110_where` walks
  through the fourteen instructions of a stream without locks.
* C111: the rules of C110; that close() makes up for an interruption is `raw_close_ok` (P_Close) after the invariant `Rec`: the stream still
  owns its descriptor and what waits to be closed is open.
* C106, in C_IntLock: `J` is an invariant of every turn, cut or not, of every interruption and of all that others do: the descriptors, the file
  and the pending descriptors stay and the stream's records are ranges.  `raw_close_ok` (P_Close) needs no more than that.
* C112: `same`: a call that is not interrupted is that of M_Raw; `begin_at` gives the state at each of the first instructions, `late` is what the
  rest keeps; then `raw_close_ok` (P_Close) and C110. C112_contents: `files` is kept by each instruction.
* C102: a flag says whether the stream below is still there; what it does then is C23, started in the state that flush() leaves.
* C65: a relation between worlds (everything but one file is the same), preserved by
  each primitive, then by each method.
* C38: dirty data per file; a crash may put anything in its place.
* C72: several buffered streams and other processes (S_Sections has the machine a program thinks it runs
  on). Invariant per stream: while it holds the lock the refinement of C31 holds, else its buffer is
  empty; per group: who holds is in the table of C01, and the kernel has the union (C20). C34 gives the
  steps at both ends of a section.
* C82-C84: M_Waiting cuts lock_file() into turns (from one sleep to the next), and S_Waiting lets the turns of several
  calls, the passing of time and the actions of C72 alternate. The invariant of C72 is split: in the registry (`rg`) is
  a stream that holds the lock or sleeps in the kernel phase. C83 reads off the invariant what is in the way of a turn.
* C85: append-mode streams in the same runs (`opstep` of S_Sections uses the machine of C68 for them); the content is
  a fold over the calls. C86: the same streams without locks; invariant: what waits in the buffer of a stream is the
  concatenation of its last records.
* C87: a predicate on the programs of M_Threads (every step only adds to the file), closed under sequencing; no
  invariant of the buffers is needed. Windows: M_WinSteps, write() of M_Windows in single system calls.
* C88: M_Fork: fork() copies the stream object, the copies share the world (hence the position of the description). The mutex
  makes calls exclude each other, so single calls, or turns, alternate. The relation of C31 holds for every copy whose
  buffers are empty; for writers, what waits in a copy is the concatenation of the last records of its process.

Helpers and options
* C36, C37, C44, C51: M_Files and M_TextFiles, composed from C05, C20, C31, C46.
* C90: the same calls when nothing stands in their way: rsopen, the layers and close() step by step from S_Helpers.in_order.
* C91: the waits that lock_file() consumed give both the content found (C36) and the locks of the others at that time.
* C92: rsopen() of a path that nothing stands in the way of, from C01, C03, C54 and the walk of C90, with the converse.
* C39: M_Wrapper; invariant over schedules.
* C40: M_Options; invariant over histories of the heap.
* C93: M_Perms, a map from names to permission bits; bit by bit, with C04 for the comparison with python.
* C73, C74: M_Patch; the mode attribute against S_Modes, and rsopen without lock, by case analysis.
* C75-C77: M_Threads cuts the methods of the buffered streams into steps (a call of the raw stream, an attribute read,
  taking and releasing _read_lock, _write_lock or the mutex of the wrapper) and runs any number of threads under any
  schedule.  P_Threads shows first that each method, run alone, computes what M_Buffered says and gives its locks back, then that
  methods which do all of their work under a common lock are serial.  The invariant: the calls that returned replay serially,
  and what the thread in the locked part has left to do leads to the result of its call on the replayed state.
  C_Threads instantiates this for readers, writers and the wrapper, and puts it together with C31.

Text
* C43: M_Newline; induction over the list of chunks.
* C46-C50: M_Text; relation between the state of the stream and a cursor in the decoded
  text; the snapshot of the decoder gives the relation that tell() and seek() need.
* C80, C81: the same streams over malformed bytes, compared with streams over a tolerant codec
  (S_Malformed.marking: a mark for each malformed byte). P_Malformed: both do the same until the
  strict one raises ValueError (`agree`), and the buffer stays sound in errors (`keeps`), so that
  seek() repairs the stream. As the mark is arbitrary, no text before an error depends on it.
* C69: for encodings in which a byte completes at most one character (S_Plain) the loops of tell()
  never leave a decoder state in the position; invariant: the decoder has no flags.
* C70, C71: the writes of a text stream are those of its buffer after encoding (C31, C32, C68); the
  encoder is a state machine on the side. An encoder that raises keeps its state in the model; that of
  utf-8-sig in the standard library has by then forgotten its byte order mark.

Windows
* C42, C45: M_Windows against the byte array of C23.
* C56-C58: M_WinHandles; invariant of the two tables.
* C89: M_WinInfo; the number of used C descriptors before and after.
* C59, C60: M_WinLocks; invariant between the registry and the locks of the system.
* C101: M_WinWait, a loop over events during which others call run_wlop. While the call waits its record is already in the registry:
  the state is compared with the one where it is not, which the calls on other handles cannot tell apart; so a call is
  the single attempt of C60 made at its last turn.

## 4. Simplifications and what is not modelled

General
* CPython itself, signals, garbage collection. The `__del__` of a raw stream whose
  constructor fails is modelled where it closes a descriptor (raw_open); other finalizers are not.
* Arguments of a wrong type are rejected by Python before the code and are left out, unless the code looks at the type.
* Path resolution, symbolic links, permissions outside of M_Perms (a refusal is one of the failures
  of open), NFS. A path is an opaque key.
* `rstest/`, benchmarks, `rsiobase.py`, warnings, `repr`, pickling; of monkey patching, the assignments themselves (C74 is about what is assigned).
* SEEK_HOLE and SEEK_DATA. Time is an integer number of units; the clock may move arbitrarily.

Locks
* Descriptors duplicated or closed by code that does not use rsfile (closing one drops
  the fcntl locks of the process on the file) are outside M_LockSys.
* A child is supposed to have another pid than the one stored in the registry it inherits.
* A thread that forks while another one is inside a registry critical section leaves
  the child a mutex that nobody releases: in M_LockSys the child then cannot use the registry.
* A kernel lock call that keeps failing for another reason than a conflict is retried,
  as in the code, for as long as the timeout allows (without timeout: `EHang`).

Streams
* Buffered and text streams are used by one thread at a time in all claims but C75-C77; there a call of a method of the raw stream is
  one step.  Text streams have no locks and are not in M_Threads (C39 is about the wrapper around them).
* A failing fsync is taken to leave the data in the cache.
* C64 leaves out EPIPE, which the code reads as end of file. C65 leaves out
  lock_file, unlock_file and close, whose effects are the subject of C11-C22 and C34.
* Text: any codec under the contract `good_codec` of S_Text (`plain_codec` for the helpers);
  strict UTF-8, UTF-8 with a mark and Latin-1 are proved to satisfy it. The floating-point guess in tell()
  is an oracle with the hypothesis `sane`. Detection of the locale encoding is left out.
* C39 leaves out the internals of the stream under RSThreadSafeWrapper, which C75-C77, C104 and C108 have.
* C110 and C111 take each call of the registry as one step: a handler that raises inside one, or while the mutex is acquired or released, is left out.
* C112 opens raw streams only; the finalizer of the half-built object runs to its end.
  The handler raises once per call.
* C108: the count that a multiprocessing.RLock keeps in each process is taken to be zero in the child, as multiprocessing's own hook
  makes it; os.fork() alone does not run that hook. The mutex of the registry is left out.

Windows
* The system part is a contract of the win32 calls; the bytes found in new space are arbitrary by position.
* Share modes, permissions but the read-only attribute, path syntax, overlapped I/O are left out.
* Locks: one attempt (the loop around it is that of C20); whether a range beyond 2^64 is refused is a parameter (`wk_strict`).
* The two backends are represented where they differ in arithmetic (C06, C41) only.

## 5. Trusted base

* The Coq 8.16.1 kernel, run again by `coqchk -o`.
* The faithfulness of the model definitions, to be read against the cited lines, and the
  contracts of M_Kernel, M_World, M_Windows, M_WinHandles and M_WinLocks.
* `Print Assumptions` follows each final theorem in its file. The output is
  `Closed under the global context` for every theorem: no axiom is used, of the standard
  library or otherwise.
* The context of some files contains axioms of the standard library that come with
  the standard modules loaded (`Coq.ssr.ssrunder`: `Under_rel` and its relatives, loaded by the arithmetic
  tactics; the development does not use ssreflect itself); no theorem depends on them.

## 6. Mutation tests

`seeded/LOG.jsonl` has one line per edit of a model definition, made in a copy. The whole
copy is rebuilt, and every lemma whose script no longer goes through is replaced by an
admitted one, so that the build goes on: `proofs_broken` lists these lemmas, and `theorems_failed` the
final theorems among them or depending on them. A theorem listed there is
one whose proof is lost, which is not yet a proof that it is false of the edited program: some edits are
equivalent to the original (raw2, file2, text9) and still break a script. Edits
after which nothing fails are the interesting ones: each led to a new or
stronger theorem (`theorems_tightened`), or is noted as equivalent or unreachable.

Five runs gave no result and have no line. reg10, th11, wt1 and dr4 (an ill-formed edit, a killed build, a changed type, a pattern not
found) were repeated, and are logged as reg10b, th11b, wt1c and dr4b. text26 (t_lock_file of M_Text without t_reset_buffers: decoded
characters are kept across lock_file) was not: the edit changes the arguments of t_lock_file, so that the statement of
C50_lock_in_iteration_refuted no longer typechecks. The theorems on that line are untested by mutation.
