(** Calls on a buffered stream begun while another call on it is unfinished and will never go on: those of a child process
    forked while other threads were in calls (os.fork() copies the locks as they are and only the thread that called it),
    and those of a signal handler that the interpreter runs on top of an unfinished call of the same thread.
    _read_lock and _write_lock are _thread.allocate_lock() (pyio:12, 1048, 1244): not recursive, local to the process,
    not reset by fork().  No proofs here. *)
From Coq Require Import ZArith List Bool.
From Verif Require Import M_Base M_Registry M_Kernel M_World M_Raw M_Buffered M_Threads.
Import ListNotations.

(** thread_safe=False (rsfile_factories.py:234-238); threading.RLock() for ordinary streams, multiprocessing.RLock() for
    inheritable ones (rsfile_streams.py:162-168) *)
Inductive wrapper : Type := WNone | WThreads | WProcesses.
(** rsfile_streams.py:170-172 *)
Definition through {R} (w : wrapper) (p : prog R) : prog R := match w with WNone => p | _ => secured p end.

(** What the child finds, about to make the calls of [script]: the locks as they were.  A multiprocessing.RLock() is one
    semaphore for parent and child (rsfile_streams.py:166): the threads of the parent go on and give it back. *)
Definition fork_child {O R} (w : wrapper) (script : list O) (q : pool O R) : pool O R :=
  mkPool (match w with WProcesses => set_lock (q_locks q) LMutex false | _ => q_locks q end) (q_st q)
    [mkThread None script] [].
(** What a handler finds when it interrupts the only thread: both mutexes are recursive (rsfile_streams.py:166-168) and
    let their owner through. *)
Definition in_handler {O R} (script : list O) (q : pool O R) : pool O R :=
  mkPool (set_lock (q_locks q) LMutex false) (q_st q) [mkThread None script] [].
