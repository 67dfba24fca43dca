(** Model of the raw stream RSFileIO on unix: rsfileio_abstract.py and
    rsfileio_unix.py, run sequentially on the world of M_World (the
    interleaved model of the locking part is M_LockSys).  No proofs here. *)
From Coq Require Import ZArith List Bool Ascii.
From Verif Require Import M_Base M_Modes M_Registry M_Kernel M_World.
Import ListNotations.
Open Scope Z_scope.

(** The attributes of an RSFileIO, rsfileio_abstract.py:86-131, 175-183 and
    rsfileio_unix.py:78-142.  [f_fd]: _fileno = _handle = _lock_registry_descriptor (None
    until the descriptor is known); [f_uid]: _lock_registry_inode (None: attribute not set). *)
Record rawio : Type := mkRio {
  f_fd : option Z; f_uid : option uid; f_closed : bool; f_closefd : bool;
  f_readable : bool; f_writable : bool; f_append : bool; f_seekable : bool;
  f_enforced : option Z; f_spin : Z }.

(** defs.DEFAULT_BUFFER_SIZE, rsfile_definitions.py:9 *)
Definition DEFAULT_BUFFER_SIZE : Z := 8192.

(** The descriptor; a stream that passed __init__ always has one. *)
Definition fd_of (f : rawio) : Z := match f_fd f with Some fd => fd | None => -1 end.
Definition uid_of (f : rawio) : uid := match f_uid f with Some u => u | None => (0, 0) end.

(** _checkClosed, _pyio_py312_backup.py:485-490 *)
Definition check_closed (f : rawio) : M unit := if f_closed f then raise EValue else ret tt.
(** _checkSeekable / _checkReadable / _checkWritable, _pyio_py312_backup.py:435-472,
    through seekable/readable/writable, rsfileio_abstract.py:252-262. *)
Definition check_seekable (f : rawio) : M unit :=
  check_closed f ;; if f_seekable f then ret tt else raise EUnsupported.
Definition check_readable (f : rawio) : M unit :=
  check_closed f ;; if f_readable f then ret tt else raise EUnsupported.
Definition check_writable (f : rawio) : M unit :=
  check_closed f ;; if f_writable f then ret tt else raise EUnsupported.

(** * Inner operations, rsfileio_unix.py *)

(** rsfileio_unix.py:230-232 *)
Definition inner_size (f : rawio) : M Z :=
  st <- sys_fstat (fd_of f) ;; ret (snd st).
(** rsfileio_unix.py:234-236, unix_stdlib.py:36-37 *)
Definition inner_tell (f : rawio) : M Z := sys_lseek (fd_of f) 0 1.
(** rsfileio_unix.py:238-243 *)
Definition inner_seek (f : rawio) (offset whence : Z) : M Z := sys_lseek (fd_of f) offset whence.

(** rsfileio_unix.py:245-255 *)
Definition inner_read (f : rawio) (n : Z) : M (option (list byte)) :=
  fun w => match sys_read (fd_of f) n w with
           | (Ok d, w') => (Ok (Some d), w')
           | (Err (EOS e), w') =>
               if e =? EAGAIN then (Ok None, w')
               else if e =? EPIPE then (Ok (Some []), w')
               else (Err (EOS e), w')
           | (Err x, w') => (Err x, w')
           end.

(** rsfileio_unix.py:263-272 *)
Definition inner_write (f : rawio) (b : list byte) : M (option Z) :=
  fun w => match sys_write (fd_of f) b w with
           | (Ok n, w') => (Ok (Some n), w')
           | (Err (EOS e), w') => if e =? EAGAIN then (Ok None, w') else (Err (EOS e), w')
           | (Err x, w') => (Err x, w')
           end.

(** rsfileio_unix.py:155-165 *)
Definition inner_reduce (f : rawio) (size : Z) : M unit :=
  if size <? 0 then raise EAssert else sys_ftruncate (fd_of f) size.
Definition inner_extend (f : rawio) (size : Z) (zero_fill : bool) : M unit :=
  if size <? 0 then raise EAssert else sys_ftruncate (fd_of f) size.

(** [try: m; return  except unix.error: pass] *)
Definition attempt_os (m : M unit) (otherwise : M unit) : M unit :=
  fun w => match m w with
           | (Err (EOS _), w') => otherwise w'
           | r => r
           end.

(** rsfileio_unix.py:167-188.  [has_fdatasync]: hasattr(unix, "fdatasync"). *)
Definition inner_sync (has_fdatasync : bool) (f : rawio) (metadata full_flush : bool) : M unit :=
  let step3 := sys_flush_to_disk (fd_of f) in
  let step2 := if negb metadata && has_fdatasync
               then attempt_os (sys_flush_to_disk (fd_of f)) step3 else step3 in
  if full_flush then attempt_os (sys_flush_to_disk (fd_of f)) step2 else step2.

(** The loop [for fd in data_list: unix.close(fd)], rsfileio_unix.py:56-58 *)
Fixpoint close_all (fds : list Z) : M unit :=
  match fds with
  | [] => ret tt
  | fd :: r => sys_close fd ;; close_all r
  end.

(** rsfileio_unix.py:46-60 *)
Definition purge_pending (u : uid) : M bool :=
  fun w =>
    let '(has, r1) := unique_id_has_locks (w_pid w) (w_reg w) u in
    if has then (Ok false, set_reg w r1)
    else
      let '(fds, r2) := remove_unique_id_data (w_pid w) r1 u in
      match close_all fds (set_reg w r2) with
      | (Ok _, w') => (Ok true, w')
      | (Err e, w') => (Err e, w')
      end.

(** rsfileio_unix.py:288-289, 297-298: length None is 0 for fcntl. *)
Definition klen (length : option Z) : Z := match length with None => 0 | Some l => l end.

(** rsfileio_unix.py:294-303 *)
Definition inner_file_unlock (f : rawio) (length : option Z) (abs_offset : Z) : M unit :=
  finally (sys_unlock (fd_of f) abs_offset (klen length))
          (purge_pending (uid_of f) ;; ret tt).

(** rsfileio_unix.py:144-153 *)
Definition inner_close_streams (f : rawio) : M unit :=
  if f_closefd f then
    match f_uid f, f_fd f with
    | Some u, Some fd =>
        (fun w => let '(r, reg) := add_unique_id_data (w_pid w) (w_reg w) u fd in
                  (r, set_reg w reg)) ;;
        purge_pending u ;;
        (fun w => let '(_, reg) := try_deleting_unique_id_entry (w_pid w) (w_reg w) u in
                  (Ok tt, set_reg w reg))
    | _, _ => ret tt
    end
  else ret tt.

(** * Public methods, rsfileio_abstract.py *)

(** The loop over the removed locks, rsfileio_abstract.py:218-223 *)
Fixpoint unlock_each (f : rawio) (l : list lockrec) : M unit :=
  match l with
  | [] => ret tt
  | lk :: r =>
      let length := match lk_end lk with None => None | Some e => Some (e - lk_start lk) end in
      inner_file_unlock f length (lk_start lk) ;; unlock_each f r
  end.

Definition set_closed (f : rawio) : rawio :=
  mkRio (f_fd f) (f_uid f) true (f_closefd f) (f_readable f) (f_writable f) (f_append f)
        (f_seekable f) (f_enforced f) (f_spin f).
Definition set_closefd (f : rawio) (b : bool) : rawio :=
  mkRio (f_fd f) (f_uid f) (f_closed f) b (f_readable f) (f_writable f) (f_append f)
        (f_seekable f) (f_enforced f) (f_spin f).

(** close(), rsfileio_abstract.py:207-227; IOBase.close marks the stream closed
    first (_pyio_py312_backup.py:390-400; flush() of an open raw stream does nothing,
    rsfileio_abstract.py:497-504).  The new state of the stream is [set_closed f]
    whatever happens. *)
Definition raw_close (f : rawio) : M unit :=
  if f_closed f then ret tt
  else
    (match f_uid f, f_fd f with
     | Some u, Some fd =>
         l <- (fun w => let '(l, reg) := remove_file_locks (w_pid w) (w_reg w) u fd in
                        (Ok l, set_reg w reg)) ;;
         unlock_each f l
     | _, _ => ret tt
     end) ;;
    inner_close_streams f.

(** rsfileio_abstract.py:335-352 *)
Definition raw_size (f : rawio) : M Z := check_closed f ;; inner_size f.
Definition raw_tell (f : rawio) : M Z := check_closed f ;; inner_tell f.
Definition raw_seek (f : rawio) (offset whence : Z) : M Z := check_closed f ;; inner_seek f offset whence.

(** read(n), n >= 0, rsfileio_abstract.py:372-386 *)
Definition raw_read_n (f : rawio) (n : Z) : M (option (list byte)) :=
  check_closed f ;; check_readable f ;; inner_read f n.

(** readall(), rsfileio_abstract.py:354-370.  [acc]: chunks so far, joined. *)
Fixpoint readall_loop (fuel : nat) (f : rawio) (acc : list byte) : M (option (list byte)) :=
  match fuel with
  | O => raise EFuel
  | S k =>
      d <- raw_read_n f DEFAULT_BUFFER_SIZE ;;
      match d with
      | Some ((_ :: _) as b) => readall_loop k f (acc ++ b)
      | _ => ret (match acc with [] => d | _ => Some acc end)
      end
  end.

(** Bytes that can still be read: bounds the number of iterations of readall. *)
Definition readall_fuel (f : rawio) : M nat :=
  fun w => (Ok (match w_fds w (fd_of f) with
                | None => O
                | Some o => match w_inodes w (o_uid o) with
                            | None => O
                            | Some i => length (n_data i)
                            end
                end), w).
Definition raw_readall (f : rawio) : M (option (list byte)) :=
  k <- readall_fuel f ;; readall_loop (S k) f [].

(** read(n), rsfileio_abstract.py:372-386; None: default argument -1 or None. *)
Definition raw_read (f : rawio) (n : option Z) : M (option (list byte)) :=
  check_closed f ;; check_readable f ;;
  match n with
  | None => raw_readall f
  | Some k => if k <? 0 then raw_readall f else inner_read f k
  end.

(** readinto(buffer), rsfileio_abstract.py:388-413, for a buffer of [n] bytes:
    the bytes stored at its beginning.  len(None) raises TypeError. *)
Definition raw_readinto (f : rawio) (n : Z) : M (list byte) :=
  check_closed f ;; check_readable f ;;
  d <- inner_read f n ;;
  match d with
  | None => raise EType
  | Some b => ret b
  end.

(** write(), rsfileio_abstract.py:415-454 *)
Definition raw_write (f : rawio) (b : list byte) : M (option Z) :=
  check_closed f ;; check_writable f ;;
  r <- inner_write f b ;;
  match r with
  | None => ret None
  | Some n =>
      if negb (is_nil b) && (n =? 0) then raise EAssert
      else if (n <? 0) || (Z.of_nat (length b) <? n) then raise ERuntime
      else ret (Some n)
  end.

(** The zero-filling fallback of truncate, rsfileio_abstract.py:480-493;
    [inner_seek] without whence (line 493) is a TypeError. *)
Fixpoint write_padding (q : nat) (f : rawio) : M unit :=
  match q with
  | O => ret tt
  | S k => inner_write f (repeat 0 (Z.to_nat DEFAULT_BUFFER_SIZE)) ;; write_padding k f
  end.
Definition truncate_fallback (f : rawio) (size current_size : Z) : M unit :=
  if negb (current_size <? size) then raise EAssert
  else
    inner_tell f ;;
    inner_seek f current_size 0 ;;
    let n := size - current_size in
    write_padding (Z.to_nat (n / DEFAULT_BUFFER_SIZE)) f ;;
    c <- inner_write f (repeat 0 (Z.to_nat (n mod DEFAULT_BUFFER_SIZE))) ;;
    match c with
    | Some k => if k =? n mod DEFAULT_BUFFER_SIZE then raise EType else raise EAssert
    | None => raise EAssert
    end.

(** truncate(), rsfileio_abstract.py:456-495 *)
Definition raw_truncate (f : rawio) (size : option Z) : M Z :=
  check_seekable f ;; check_writable f ;;
  sz <- (match size with
         | None => raw_tell f
         | Some s => if s <? 0 then raise (EOS EINVAL) else ret s
         end) ;;
  cur <- raw_size f ;;
  (if sz =? cur then ret tt
   else if sz <? cur then inner_reduce f sz
   else
     inner_extend f sz true ;;
     cur2 <- raw_size f ;;
     if cur2 =? sz then ret tt else truncate_fallback f sz cur2) ;;
  raw_size f.

(** rsfileio_abstract.py:497-511 *)
Definition raw_flush (f : rawio) : M unit := check_closed f.
Definition raw_sync (has_fdatasync : bool) (f : rawio) (metadata full_flush : bool) : M unit :=
  check_closed f ;; inner_sync has_fdatasync f metadata full_flush.

(** * Locks *)

(** An integer-like argument: None, an int (or float, for the timeout), or
    something else. *)
Inductive parg : Type := PNone | PInt (z : Z) | PBad.
(** The [shared] argument. *)
Inductive sarg : Type := SNone | SBool (b : bool) | SBad.

Definition parg_opt (p : parg) : option Z := match p with PInt z => Some z | _ => None end.

(** [x is not None and (not isinstance(x, ...) or x < 0)] *)
Definition bad_nonneg (p : parg) : bool :=
  match p with PNone => false | PInt z => z <? 0 | PBad => true end.

(** rsfileio_abstract.py:513-525 *)
Definition abs_offset (f : rawio) (offset : parg) (whence : Z) : M Z :=
  let off := match offset with PInt z => z | _ => 0 end in
  if whence =? 0 then ret off
  else if whence =? 1 then p <- inner_tell f ;; ret (p + off)
  else s <- inner_size f ;; ret (s + off).

(** defs.SEEK_VALUES, rsfile_definitions.py:7 *)
Definition seek_value (whence : Z) : bool := (whence =? 0) || (whence =? 1) || (whence =? 2).

(** Where lock_file is: about to call register_file_lock; waiting on the
    registry's condition; about to call lockf; waiting inside lockf. *)
Inductive phase : Type := PhReg | PhRegWait | PhKern | PhKernWait.

(** Everything the loop needs, rsfileio_abstract.py:562-571. *)
Record lockreq : Type := mkReq {
  q_length : option Z; q_off : Z; q_shared : bool; q_timeout : option Z; q_start_time : Z }.

(** low_level_blocking, rsfileio_abstract.py:563-565 *)
Definition low_level_blocking (f : rawio) (q : lockreq) : bool :=
  match q_timeout q with
  | Some _ => false
  | None => match f_enforced f with None => true | Some _ => false end
  end.

(** check_timeout, rsfileio_abstract.py:569-590: [Some e] is raised, None means sleep. *)
Definition check_timeout (f : rawio) (q : lockreq) (now errno : Z) : option exn :=
  let delay := now - q_start_time q in
  match q_timeout q with
  | Some t => if t <=? delay then Some (ELocking errno)
              else if f_spin f <? 0 then Some EValue else None
  | None => match f_enforced f with
            | Some t => if t <=? delay then Some ERuntime
                        else if f_spin f <? 0 then Some EValue else None
            | None => if f_spin f <? 0 then Some EValue else None
            end
  end.

(** unregister_file_lock in the finally clause, rsfileio_abstract.py:629-634 *)
Definition unregister (f : rawio) (q : lockreq) : M unit :=
  fun w => let '(r, reg, _) := unregister_file_lock (w_pid w) (w_reg w) (uid_of f) (fd_of f)
                                 (q_length q) (q_off q) in
           match r with
           | Ok _ => (Ok tt, set_reg w reg)
           | Err e => (Err e, set_reg w reg)
           end.

(** The waiter counter, rsfile_registries.py:188-190 *)
Definition wait_count (f : rawio) (d : Z) (w : world) : res unit * world :=
  match add_waiting (w_reg w) (uid_of f) d with
  | Ok r => (Ok tt, set_reg w r)
  | Err e => (Err e, w)
  end.

(** The two nested loops of lock_file, rsfileio_abstract.py:592-636, together with
    the loop of register_file_lock (rsfile_registries.py:182-190) and the waiting
    inside fcntl(F_SETLKW).  Recursion is on the environment: each sleep or wait
    consumes one of its events; when there is none left the call hangs. *)
Fixpoint lock_loop (f : rawio) (q : lockreq) (env : list envev) (ph : phase) (w : world)
  {struct env} : res unit * world :=
  let fd := fd_of f in
  let u := uid_of f in
  let sleep (next : phase) (errno : Z) (reg : bool) (w : world) :=
    match check_timeout f q (w_clock w) errno with
    | Some e => if reg
                then match unregister f q w with
                     | (Ok _, w') => (Err e, w')
                     | (Err e', w') => (Err e', w')
                     end
                else (Err e, w)
    | None => match env with
              | [] => (Err EHang, w)
              | ev :: env' => lock_loop f q env' next (set_env (apply_env u fd ev w) env')
              end
    end in
  let attempt (w : world) :=
    match lock_attempt u (q_shared q) (q_off q) (klen (q_length q)) w with
    | (Ok true, w') => (Ok tt, w')
    | (_, w') =>
        if low_level_blocking f q
        then match env with
             | [] => (Err EHang, w')
             | ev :: env' => lock_loop f q env' PhKernWait (set_env (apply_env u fd ev w') env')
             end
        else sleep PhKern EAGAIN true w'
    end in
  let kern (w : world) :=
    match lock_pre fd (q_shared q) (q_off q) w with
    | (Ok _, w') => attempt w'
    | (Err (EOS e), w') => sleep PhKern e true w'
    | (Err e, w') => match unregister f q w' with
                     | (Ok _, w'') => (Err e, w'')
                     | (Err e', w'') => (Err e', w'')
                     end
    end in
  let register (first : bool) (w : world) :=
    let '(r, reg) := register_once first (w_pid w) (w_reg w) u fd (q_length q) (q_off q) (q_shared q) in
    let w' := set_reg w reg in
    match r with
    | Err e => (Err e, w')
    | Ok true => kern w'
    | Ok false =>
        if low_level_blocking f q
        then match wait_count f 1 w' with
             | (Err e, w'') => (Err e, w'')
             | (Ok _, w'') =>
                 match env with
                 | [] => (Err EHang, w'')
                 | ev :: env' => lock_loop f q env' PhRegWait (set_env (apply_env u fd ev w'') env')
                 end
             end
        else sleep PhReg EPERM false w'
    end in
  match ph with
  | PhReg => register true w
  | PhRegWait => match wait_count f (-1) w with
                 | (Err e, w') => (Err e, w')
                 | (Ok _, w') => register false w'
                 end
  | PhKern => kern w
  | PhKernWait => attempt w
  end.

(** lock_file, rsfileio_abstract.py:534-638.  Returns what the context manager
    remembers: (length, abs_offset). *)
Definition raw_lock_file (f : rawio) (timeout length offset : parg) (whence : Z) (shared : sarg)
  : M (option Z * Z) :=
  check_seekable f ;;
  if bad_nonneg timeout then raise EBadValue
  else if bad_nonneg length then raise EBadValue
  else if (match offset with PBad => true | _ => false end) then raise EBadValue
  else if negb (seek_value whence) then raise EBadValue
  else match shared with
  | SBad => raise EBadValue
  | _ =>
      let sh := match shared with SBool b => b | _ => negb (f_writable f) end in
      if (sh && negb (f_readable f)) || (negb sh && negb (f_writable f)) then raise (EOS 0)
      else
        off <- abs_offset f offset whence ;;
        (fun w =>
           let q := mkReq (parg_opt length) off sh (parg_opt timeout) (w_clock w) in
           match lock_loop f q (w_env w) PhReg w with
           | (Ok _, w') => (Ok (parg_opt length, off), w')
           | (Err e, w') => (Err e, w')
           end)
  end.

(** unlock_file, rsfileio_abstract.py:640-662 *)
Definition raw_unlock_file (f : rawio) (length offset : parg) (whence : Z) : M unit :=
  check_seekable f ;;
  if bad_nonneg length then raise EBadValue
  else if bad_nonneg offset then raise EBadValue
  else if negb (seek_value whence) then raise EBadValue
  else
    off <- abs_offset f offset whence ;;
    (fun w => let '(r, reg, _) := unregister_file_lock (w_pid w) (w_reg w) (uid_of f) (fd_of f)
                                    (parg_opt length) off in
              match r with
              | Ok _ => (Ok tt, set_reg w reg)
              | Err e => (Err e, set_reg w reg)
              end) ;;
    inner_file_unlock f (parg_opt length) off.

(** [with f.lock_file(...): body], rsfileio_abstract.py:527-532 with
    contextlib.contextmanager: an exception of the body is thrown at the [yield], so
    line 532 is not reached. *)
Definition raw_with_lock {A} (f : rawio) (timeout length offset : parg) (whence : Z) (shared : sarg)
    (body : M A) : M A :=
  cm <- raw_lock_file f timeout length offset whence shared ;;
  r <- body ;;
  raw_unlock_file f (match fst cm with None => PNone | Some l => PInt l end) (PInt (snd cm)) 0 ;;
  ret r.

(** * Opening *)

(** rsfileio_unix.py:63-142; returns (fd, attributes set?) through the stream.
    The first component is the stream as it is when the exception, if any, is raised. *)
Definition inner_create_streams (f : rawio) (rk : raw_kwargs) (w : world) : res unit * rawio * world :=
  let with_fd (fd : Z) (u : option uid) :=
    mkRio (Some fd) u (f_closed f) (f_closefd f) (f_readable f) (f_writable f) (f_append f)
          (f_seekable f) (f_enforced f) (f_spin f) in
  let finish (fd : Z) (w : world) :=
    match sys_fstat fd w with
    | (Ok (u, _, _), w') => (Ok tt, with_fd fd (Some u), w')
    | (Err e, w') => (Err e, with_fd fd None, w')
    end in
  match rk_handle rk, rk_fileno rk, rk_path rk with
  | Some h, _, _ => finish h w
  | None, Some fd, _ => finish fd w
  | None, None, NPath p =>
      match sys_open p (unix_open_flags rk) w with
      | (Err e, w') => (Err e, f, w')
      | (Ok fd, w') =>
          match sys_fstat fd w' with
          | (Err e, w'') => (Err e, with_fd fd None, w'')
          | (Ok (_, KDir, _), w'') => (Err (EOS EISDIR), with_fd fd None, w'')
          | (Ok _, w'') =>
              match sys_set_inheritable fd (rk_inheritable rk) w'' with
              | (Ok _, w3) => finish fd w3
              | (Err e, w3) => (Err e, with_fd fd None, w3)
              end
          end
      end
  | None, None, _ => (Err EType, f, w)
  end.

(** [fileno or handle], rsfileio_abstract.py:173 *)
Definition wraps (rk : raw_kwargs) : bool := truthy (rk_fileno rk) || truthy (rk_handle rk).

(** __init__, rsfileio_abstract.py:70-196.  Returns the stream as it is at the end or when
    the exception was raised. *)
Definition raw_init (rk : raw_kwargs) (w : world) : res unit * rawio * world :=
  let write := rk_write rk || rk_append rk in
  let f0 := mkRio None None false (rk_closefd rk) (rk_read rk) write (rk_append rk) false
                  (opt_enforced (w_opts w)) (opt_spin (w_opts w)) in
  match init_checks rk with
  | Err e => (Err e, f0, w)
  | Ok _ =>
      match inner_create_streams f0 rk w with
      | (Err e, f1, w1) => (Err e, f1, w1)
      | (Ok _, f1, w1) =>
          match sys_fstat (fd_of f1) w1 with
          | (Err e, w2) => (Err e, f1, w2)
          | (Ok (_, KDir, _), w2) =>
              if wraps rk then (Err (EOS EISDIR), set_closefd f1 false, w2)
              else (Err EAssert, f1, w2)
          | (Ok (_, k, _), w2) =>
              let f2 := mkRio (f_fd f1) (f_uid f1) false (f_closefd f1) (f_readable f1) (f_writable f1)
                              (f_append f1) (match k with KReg => true | _ => false end)
                              (f_enforced f1) (f_spin f1) in
              if rk_append rk then
                match raw_seek f2 0 2 w2 with
                | (Ok _, w3) => (Ok tt, f2, w3)
                | (Err (EOS e), w3) => if e =? ESPIPE then (Ok tt, f2, w3) else (Err (EOS e), f2, w3)
                | (Err e, w3) => (Err e, f2, w3)
                end
              else (Ok tt, f2, w2)
          end
      end
  end.

(** RSFileIO(...): if __init__ raises, the half-built object is dropped and its
    finalizer calls close(), ignoring exceptions (IOBase.__del__,
    _pyio_py312_backup.py:402-425; CPython runs it as soon as the object is unreachable). *)
Definition raw_open (rk : raw_kwargs) (w : world) : res rawio * world :=
  match raw_init rk w with
  | (Ok _, f, w') => (Ok f, w')
  | (Err e, f, w') => (Err e, snd (raw_close f w'))
  end.
