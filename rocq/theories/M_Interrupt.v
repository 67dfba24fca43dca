(** lock_file interrupted by a signal handler that raises: where the exception comes out of the
    two loops, and what the [finally] clause does then. *)
From Coq Require Import ZArith List Bool.
From Verif Require Import M_Base M_Modes M_Registry M_Kernel M_World M_Raw M_Waiting.
Import ListNotations.
Open Scope Z_scope.

(** What a signal handler raises: an exception that is no EnvironmentError (KeyboardInterrupt,
    an exception of the program), or an EnvironmentError (the [raise OSError] and
    [raise TimeoutError] of the usual handlers of SIGALRM). *)
Inductive signal : Type := SExc (n : Z) | SOSError (errno : Z).
Definition raised (s : signal) : exn := match s with SExc n => EUser n | SOSError n => EOS n end.

(** Handlers also run between two instructions.  [AfterRegister]: after register_file_lock has
    returned True, before the [try] (rsfileio_abstract.py:597-611).  [AfterLock]: after
    _inner_file_lock has returned, before [success = True] (rsfileio_abstract.py:622-626). *)
Inductive cut : Type := NoCut | AfterRegister (s : signal) | AfterLock (s : signal).

Section Interrupt.
Variables (f : rawio) (q : lockreq).

(** An exception inside the inner [try]: an EnvironmentError is given to check_timeout, any
    other leaves through the [finally], rsfileio_abstract.py:628-636. *)
Definition inside (s : signal) (w : world) : turn * world :=
  match s with
  | SOSError n => turn_sleep f q PhKern n true w
  | SExc n => turn_fail f q true (EUser n) w
  end.

(** fcntl.lockf, rsfileio_unix.py:275-293, called at rsfileio_abstract.py:622-626. *)
Definition attempt_cut (c : cut) (w : world) : turn * world :=
  match lock_attempt (uid_of f) (q_shared q) (q_off q) (klen (q_length q)) w with
  | (Ok true, w') => match c with AfterLock s => inside s w' | _ => (TDone (Ok tt), w') end
  | (_, w') => if low_level_blocking f q then (TWait PhKernWait, w') else turn_sleep f q PhKern EAGAIN true w'
  end.
(** The inner loop, rsfileio_abstract.py:611-636. *)
Definition kern_cut (c : cut) (w : world) : turn * world :=
  match lock_pre (fd_of f) (q_shared q) (q_off q) w with
  | (Ok _, w') => attempt_cut c w'
  | (Err (EOS e), w') => turn_sleep f q PhKern e true w'
  | (Err e, w') => turn_fail f q true e w'
  end.
(** The outer loop, rsfileio_abstract.py:594-609, with register_file_lock,
    rsfile_registries.py:173-195. *)
Definition register_cut (c : cut) (first : bool) (w : world) : turn * world :=
  let '(r, reg) := register_once first (w_pid w) (w_reg w) (uid_of f) (fd_of f) (q_length q) (q_off q) (q_shared q) in
  let w' := set_reg w reg in
  match r with
  | Err e => (TDone (Err e), w')
  | Ok true => match c with AfterRegister s => (TDone (Err (raised s)), w') | _ => kern_cut c w' end
  | Ok false =>
      if low_level_blocking f q
      then match wait_count f 1 w' with
           | (Err e, w'') => (TDone (Err e), w'')
           | (Ok _, w'') => (TWait PhRegWait, w'')
           end
      else turn_sleep f q PhReg EPERM false w'
  end.
(** One turn, possibly cut. *)
Definition turn_cut (c : cut) (ph : phase) (w : world) : turn * world :=
  match ph with
  | PhReg => register_cut c true w
  | PhRegWait => match wait_count f (-1) w with
                 | (Err e, w') => (TDone (Err e), w')
                 | (Ok _, w') => register_cut c false w'
                 end
  | PhKern => kern_cut c w
  | PhKernWait => attempt_cut c w
  end.

(** The handler raises while the call waits.  In the sleep of check_timeout called from the outer
    loop (rsfileio_abstract.py:607, 590) and in Condition.wait (rsfile_registries.py:189, which
    line 190 does not follow then) nothing is caught.  In the sleep of the inner loop
    (rsfileio_abstract.py:629) the exception is raised inside the [except] clause, so that only
    the [finally] is left.  In fcntl.lockf it is raised inside the inner [try]. *)
Definition interrupt (s : signal) (ph : phase) (w : world) : turn * world :=
  match ph with
  | PhReg | PhRegWait => (TDone (Err (raised s)), w)
  | PhKern => turn_fail f q true (raised s) w
  | PhKernWait => inside s w
  end.

(** What ends a wait: others act and the call wakes up for a turn, or a handler raises. *)
Inductive happening : Type := Wake (ev : envev) (c : cut) | Interrupt (s : signal).
Fixpoint go_on (hs : list happening) (t : turn * world) : turn * world :=
  match hs, t with
  | Wake ev c :: hs', (TWait ph, w) => go_on hs' (turn_cut c ph (apply_env (uid_of f) (fd_of f) ev w))
  | Interrupt s :: hs', (TWait ph, w) => go_on hs' (interrupt s ph w)
  | _, _ => t
  end.
(** lock_file from the beginning of its loops, rsfileio_abstract.py:592-638. *)
Definition lock_call (c : cut) (hs : list happening) (w : world) : turn * world :=
  go_on hs (turn_cut c PhReg w).
End Interrupt.
