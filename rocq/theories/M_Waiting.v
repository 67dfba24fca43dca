(** lock_file cut into turns: what one execution of the body of its loops does, between two
    sleeps.  [lock_loop] of M_Raw is the repetition of it with the environment acting in
    between (theorem C82_turns_make_the_call); here the turns of several calls can alternate. *)
From Coq Require Import ZArith List Bool.
From Verif Require Import M_Base M_Modes M_Registry M_Kernel M_World M_Raw M_Buffered.
Import ListNotations.
Open Scope Z_scope.

(** The call is over, or sleeps and will go on in phase [ph]. *)
Inductive turn : Type := TDone (r : res unit) | TWait (ph : phase).

Section Turn.
Variables (f : rawio) (q : lockreq).

(** Giving up: the lock is taken out of the registry if it was recorded,
    rsfileio_abstract.py:631-636. *)
Definition turn_fail (reg : bool) (e : exn) (w : world) : turn * world :=
  if reg then match unregister f q w with
              | (Ok _, w') => (TDone (Err e), w')
              | (Err e', w') => (TDone (Err e'), w')
              end
  else (TDone (Err e), w).
(** check_timeout, rsfileio_abstract.py:569-590: an exception, or time.sleep. *)
Definition turn_sleep (next : phase) (errno : Z) (reg : bool) (w : world) : turn * world :=
  match check_timeout f q (w_clock w) errno with
  | Some e => turn_fail reg e w
  | None => (TWait next, w)
  end.
(** fcntl.lockf, rsfileio_unix.py:275-293: it blocks if neither a timeout nor an enforced one
    is set, else it fails at once (rsfileio_abstract.py:622-629). *)
Definition turn_attempt (w : world) : turn * world :=
  match lock_attempt (uid_of f) (q_shared q) (q_off q) (klen (q_length q)) w with
  | (Ok true, w') => (TDone (Ok tt), w')
  | (_, w') => if low_level_blocking f q then (TWait PhKernWait, w') else turn_sleep PhKern EAGAIN true w'
  end.
(** The inner loop, rsfileio_abstract.py:611-636. *)
Definition turn_kern (w : world) : turn * world :=
  match lock_pre (fd_of f) (q_shared q) (q_off q) w with
  | (Ok _, w') => turn_attempt w'
  | (Err (EOS e), w') => turn_sleep PhKern e true w'
  | (Err e, w') => turn_fail true e w'
  end.
(** The outer loop, rsfileio_abstract.py:594-609, with register_file_lock,
    rsfile_registries.py:173-195. *)
Definition turn_register (first : bool) (w : world) : turn * world :=
  let '(r, reg) := register_once first (w_pid w) (w_reg w) (uid_of f) (fd_of f) (q_length q) (q_off q) (q_shared q) in
  let w' := set_reg w reg in
  match r with
  | Err e => (TDone (Err e), w')
  | Ok true => turn_kern w'
  | Ok false =>
      if low_level_blocking f q
      then match wait_count f 1 w' with
           | (Err e, w'') => (TDone (Err e), w'')
           | (Ok _, w'') => (TWait PhRegWait, w'')
           end
      else turn_sleep PhReg EPERM false w'
  end.
(** One turn in phase [ph]; waking up of Condition.wait is rsfile_registries.py:190. *)
Definition lock_turn (ph : phase) (w : world) : turn * world :=
  match ph with
  | PhReg => turn_register true w
  | PhRegWait => match wait_count f (-1) w with
                 | (Err e, w') => (TDone (Err e), w')
                 | (Ok _, w') => turn_register false w'
                 end
  | PhKern => turn_kern w
  | PhKernWait => turn_attempt w
  end.
End Turn.

(** The request of [lock_file(timeout=t)] and its first turn, rsfileio_abstract.py:534-636.
    The second component says how to go on. *)
Definition lock_begin (f : rawio) (timeout : parg) (w : world) : turn * lockreq * world :=
  let q := mkReq None 0 (negb (f_writable f)) (parg_opt timeout) (w_clock w) in
  match check_seekable f w with
  | (Err e, w') => (TDone (Err e), q, w')
  | (Ok _, w') =>
      if bad_nonneg timeout then (TDone (Err EBadValue), q, w')
      else if (q_shared q && negb (f_readable f)) || (negb (q_shared q) && negb (f_writable f))
      then (TDone (Err (EOS 0)), q, w')
      else let '(t, w'') := lock_turn f q PhReg w' in (t, q, w'')
  end.

(** lock_file of a buffered stream, rsfile_streams.py:51-53: the buffers are reset, then
    the raw stream is asked. *)
Definition b_lock_begin (k : bkind) (timeout : parg) (b : bstate) : turn * lockreq * bstate :=
  match reset_buffers k b with
  | (Err e, b') => (TDone (Err e), mkReq None 0 false None 0, b')
  | (Ok _, b') => let '(t, q, w) := lock_begin (b_raw b') timeout (b_w b') in (t, q, set_world b' w)
  end.
Definition b_lock_turn (q : lockreq) (ph : phase) (b : bstate) : turn * bstate :=
  let '(t, w) := lock_turn (b_raw b) q ph (b_w b) in (t, set_world b w).
