(** The sequential world: one process of interest, its kernel objects and
    everything the rest of the system may do to it.  This is the contract of the
    operating system that rsfile relies on (POSIX open, close, read, write, lseek,
    ftruncate, fsync, fcntl), not code of the repository, except the thin names
    of rsbackend/unix_stdlib.py:8-37.  Everything the kernel may choose (new descriptor and
    inode numbers, short counts, errors, the clock, what others do while
    the process sleeps or waits) is read from lists stored in the world.
    No proofs here. *)
From Coq Require Import ZArith List Bool Ascii.
From Verif Require Import M_Base M_Modes M_Registry M_Kernel.
Import ListNotations.
Open Scope Z_scope.

(** * Bytes of a file *)

(** A byte is a number 0..255; nothing below depends on the bound. *)
Notation byte := Z (only parsing).

(** [l] completed with zeros up to [n] bytes (a hole reads as zeros). *)
Definition pad_to (n : nat) (l : list byte) : list byte := l ++ repeat 0 (n - length l).

(** Writing the bytes [b] at position [pos]. *)
Definition write_at (l : list byte) (pos : nat) (b : list byte) : list byte :=
  match b with
  | [] => l
  | _ => firstn pos (pad_to pos l) ++ b ++ skipn (pos + length b) l
  end.

(** ftruncate(2): cut, or extend with zeros. *)
Definition set_size (l : list byte) (n : nat) : list byte := firstn n (pad_to n l).

(** * Kernel objects *)

Inductive kind : Type := KReg | KDir | KPipe.

(** [n_dirty]: some change of the content may not be on the disk yet. *)
Record inode : Type := mkIno { n_kind : kind; n_data : list byte; n_dirty : bool }.

(** An open file description.  Descriptors sharing one description (dup) are
    not represented. *)
Record ofd : Type := mkOfd {
  o_uid : uid; o_pos : Z; o_rd : bool; o_wr : bool; o_app : bool; o_sync : bool;
  o_inh : bool }.                           (* kept by exec (not FD_CLOEXEC) *)

(** What a system call does when nothing else prevents it: everything asked,
    only part of it, or an error. *)
Inductive ioev : Type := IoFull | IoShort (n : nat) | IoErr (errno : Z).

(** What happens to the world while the process sleeps or waits: the clock moves by
    [ev_dt], other processes hold [ev_kern] afterwards, other threads hold the
    registry locks [ev_locks] on the file concerned, its content is [ev_data].
    None: no change. *)
Record envev : Type := mkEv {
  ev_dt : Z; ev_kern : option klocks; ev_locks : option (list lockrec);
  ev_data : option (list byte) }.

(** _default_rsfile_options, rsfile_registries.py:8-16; times are integers (any
    fixed unit). *)
Record options : Type := mkOpt { opt_enforced : option Z; opt_spin : Z }.

Record world : Type := mkW {
  w_names : list ascii -> option uid;       (* directory entries *)
  w_inodes : uid -> option inode;
  w_fds : Z -> option ofd;                  (* descriptor table of the process *)
  w_newfd : list Z;                         (* descriptor numbers open(2) will return *)
  w_newino : list uid;                      (* identities of the files to be created *)
  w_kern : klocks;                          (* record locks, of all processes *)
  w_reg : registry;                         (* IntraProcessLockRegistry *)
  w_pid : Z;
  w_io : list ioev;                         (* outcomes of the next system calls *)
  w_env : list envev;                       (* what happens during the next waits *)
  w_clock : Z;                              (* time.time() *)
  w_opts : options;
  w_blk : Z }.                              (* st_blksize of files *)

Definition set_names (w : world) x := mkW x (w_inodes w) (w_fds w) (w_newfd w) (w_newino w) (w_kern w) (w_reg w) (w_pid w) (w_io w) (w_env w) (w_clock w) (w_opts w) (w_blk w).
Definition set_inodes (w : world) x := mkW (w_names w) x (w_fds w) (w_newfd w) (w_newino w) (w_kern w) (w_reg w) (w_pid w) (w_io w) (w_env w) (w_clock w) (w_opts w) (w_blk w).
Definition set_fds (w : world) x := mkW (w_names w) (w_inodes w) x (w_newfd w) (w_newino w) (w_kern w) (w_reg w) (w_pid w) (w_io w) (w_env w) (w_clock w) (w_opts w) (w_blk w).
Definition set_newfd (w : world) x := mkW (w_names w) (w_inodes w) (w_fds w) x (w_newino w) (w_kern w) (w_reg w) (w_pid w) (w_io w) (w_env w) (w_clock w) (w_opts w) (w_blk w).
Definition set_newino (w : world) x := mkW (w_names w) (w_inodes w) (w_fds w) (w_newfd w) x (w_kern w) (w_reg w) (w_pid w) (w_io w) (w_env w) (w_clock w) (w_opts w) (w_blk w).
Definition set_kern (w : world) x := mkW (w_names w) (w_inodes w) (w_fds w) (w_newfd w) (w_newino w) x (w_reg w) (w_pid w) (w_io w) (w_env w) (w_clock w) (w_opts w) (w_blk w).
Definition set_reg (w : world) x := mkW (w_names w) (w_inodes w) (w_fds w) (w_newfd w) (w_newino w) (w_kern w) x (w_pid w) (w_io w) (w_env w) (w_clock w) (w_opts w) (w_blk w).
Definition set_io (w : world) x := mkW (w_names w) (w_inodes w) (w_fds w) (w_newfd w) (w_newino w) (w_kern w) (w_reg w) (w_pid w) x (w_env w) (w_clock w) (w_opts w) (w_blk w).
Definition set_env (w : world) x := mkW (w_names w) (w_inodes w) (w_fds w) (w_newfd w) (w_newino w) (w_kern w) (w_reg w) (w_pid w) (w_io w) x (w_clock w) (w_opts w) (w_blk w).
Definition set_clock (w : world) x := mkW (w_names w) (w_inodes w) (w_fds w) (w_newfd w) (w_newino w) (w_kern w) (w_reg w) (w_pid w) (w_io w) (w_env w) x (w_opts w) (w_blk w).
Definition set_opts (w : world) x := mkW (w_names w) (w_inodes w) (w_fds w) (w_newfd w) (w_newino w) (w_kern w) (w_reg w) (w_pid w) (w_io w) (w_env w) (w_clock w) x (w_blk w).

(** * State and exceptions *)

(** A Python computation on a state [S]: result or exception, and the state it leaves. *)
Definition comp (S A : Type) : Type := S -> res A * S.
Definition ret {S A} (a : A) : comp S A := fun s => (Ok a, s).
Definition raise {S A} (e : exn) : comp S A := fun s => (Err e, s).
Definition bind {S A B} (m : comp S A) (f : A -> comp S B) : comp S B :=
  fun s => match m s with
           | (Ok a, s') => f a s'
           | (Err e, s') => (Err e, s')
           end.
Definition get {S} : comp S S := fun s => (Ok s, s).
Definition put {S} (s : S) : comp S unit := fun _ => (Ok tt, s).
(** [try: m finally: f]: f runs in every case; its own exception, if any, wins. *)
Definition finally {S A} (m : comp S A) (f : comp S unit) : comp S A :=
  fun s => let '(r, s1) := m s in
           match f s1 with
           | (Ok _, s2) => (r, s2)
           | (Err e, s2) => (Err e, s2)
           end.
Notation "x <- m ;; k" := (bind m (fun x => k)) (at level 61, m at next level, right associativity).
Notation "m ;; k" := (bind m (fun _ => k)) (at level 61, right associativity).

Definition M (A : Type) : Type := comp world A.

(** * System calls *)

(** The outcome chosen for this call (an exhausted list: everything succeeds). *)
Definition next_io : M ioev :=
  fun w => match w_io w with
           | [] => (Ok IoFull, w)
           | e :: r => (Ok e, set_io w r)
           end.

Definition upd_ino (w : world) (u : uid) (i : inode) : world :=
  set_inodes w (upd uid_eqb (w_inodes w) u (Some i)).
Definition upd_fd (w : world) (fd : Z) (o : option ofd) : world :=
  set_fds w (upd Z.eqb (w_fds w) fd o).

Definition set_pos (o : ofd) (p : Z) : ofd :=
  mkOfd (o_uid o) p (o_rd o) (o_wr o) (o_app o) (o_sync o) (o_inh o).

(** The description and inode behind a descriptor. *)
Definition get_fd (fd : Z) : M (ofd * inode) :=
  fun w => match w_fds w fd with
           | None => (Err (EOS EBADF), w)
           | Some o => match w_inodes w (o_uid o) with
                       | None => (Err (EOS EBADF), w)
                       | Some i => (Ok (o, i), w)
                       end
           end.

Definition names_eqb : list ascii -> list ascii -> bool := str_eqb.

(** open(2) *)
Definition sys_open (path : list ascii) (fl : oflags) : M Z :=
  e <- next_io ;;
  match e with
  | IoErr n => raise (EOS n)
  | _ => fun w =>
      match w_newfd w with
      | [] => (Err (EOS EMFILE), w)
      | fd :: fds =>
          match w_fds w fd with
          | Some _ => (Err (EOS EMFILE), w)
          | None =>
              match w_names w path with
              | None =>
                  if of_creat fl then
                    match w_newino w with
                    | [] => (Err (EOS ENOSPC), w)
                    | u :: us =>
                        match w_inodes w u with
                        | Some _ => (Err (EOS ENOSPC), w)
                        | None =>
                            let w1 := set_names w (upd names_eqb (w_names w) path (Some u)) in
                            let w2 := set_newfd (set_newino w1 us) fds in
                            let w3 := upd_ino w2 u (mkIno KReg [] true) in
                            (Ok fd, upd_fd w3 fd (Some (mkOfd u 0 (of_rd fl) (of_wr fl)
                                                              (of_append fl) (of_sync fl) false)))
                        end
                    end
                  else (Err (EOS ENOENT), w)
              | Some u =>
                  match w_inodes w u with
                  | None => (Err (EOS ENOENT), w)
                  | Some i =>
                      if of_creat fl && of_excl fl then (Err (EOS EEXIST), w)
                      else if (match n_kind i with KDir => of_wr fl || of_creat fl | _ => false end)
                      then (Err (EOS EISDIR), w)
                      else
                        let w1 := set_newfd w fds in
                        let w2 := if of_trunc fl then upd_ino w1 u (mkIno (n_kind i) [] true) else w1 in
                        (Ok fd, upd_fd w2 fd (Some (mkOfd u 0 (of_rd fl) (of_wr fl)
                                                          (of_append fl) (of_sync fl) false)))
                  end
              end
          end
      end
  end.

(** os.set_inheritable (fcntl F_SETFD); os.open creates non-inheritable descriptors. *)
Definition sys_set_inheritable (fd : Z) (inh : bool) : M unit :=
  fun w => match w_fds w fd with
           | None => (Err (EOS EBADF), w)
           | Some o => (Ok tt, upd_fd w fd (Some (mkOfd (o_uid o) (o_pos o) (o_rd o) (o_wr o)
                                                        (o_app o) (o_sync o) inh)))
           end.

(** close(2): also drops the process's record locks on the file. *)
Definition sys_close (fd : Z) : M unit :=
  fun w => match w_fds w fd with
           | None => (Err (EOS EBADF), w)
           | Some o => (Ok tt, set_kern (upd_fd w fd None) (kclose (w_kern w) (w_pid w) (o_uid o)))
           end.

(** fstat(2): kind and size. *)
Definition sys_fstat (fd : Z) : M (uid * kind * Z) :=
  oi <- get_fd fd ;;
  let '(o, i) := oi in ret (o_uid o, n_kind i, Z.of_nat (length (n_data i))).

(** lseek(2) *)
Definition sys_lseek (fd : Z) (offset whence : Z) : M Z :=
  oi <- get_fd fd ;;
  let '(o, i) := oi in
  match n_kind i with
  | KPipe => raise (EOS ESPIPE)
  | _ =>
      let base := if whence =? 0 then Some 0
                  else if whence =? 1 then Some (o_pos o)
                  else if whence =? 2 then Some (Z.of_nat (length (n_data i)))
                  else None in
      match base with
      | None => raise (EOS EINVAL)
      | Some b =>
          let p := b + offset in
          if p <? 0 then raise (EOS EINVAL)
          else fun w => (Ok p, upd_fd w fd (Some (set_pos o p)))
      end
  end.

(** How many of [n] bytes this call handles: at least one if any is asked. *)
Definition io_count (e : ioev) (n : nat) : nat :=
  match e with
  | IoShort k => Nat.min n (Nat.max 1 k)
  | _ => n
  end.

(** read(2) *)
Definition sys_read (fd : Z) (n : Z) : M (list byte) :=
  oi <- get_fd fd ;;
  let '(o, i) := oi in
  if negb (o_rd o) then raise (EOS EBADF)
  else match n_kind i with
  | KDir => raise (EOS EISDIR)
  | k =>
      if n <? 0 then raise (EOS EINVAL)
      else
      e <- next_io ;;
      match e with
      | IoErr x => raise (EOS x)
      | _ =>
          let c := io_count e (Z.to_nat n) in
          match k with
          | KPipe => fun w => (Ok (firstn c (n_data i)),
                               upd_ino w (o_uid o) (mkIno KPipe (skipn c (n_data i)) (n_dirty i)))
          | _ =>
              let d := firstn c (skipn (Z.to_nat (o_pos o)) (n_data i)) in
              fun w => (Ok d, upd_fd w fd (Some (set_pos o (o_pos o + Z.of_nat (length d)))))
          end
      end
  end.

(** write(2).  With O_APPEND the position is first moved to the end, atomically. *)
Definition sys_write (fd : Z) (b : list byte) : M Z :=
  oi <- get_fd fd ;;
  let '(o, i) := oi in
  if negb (o_wr o) then raise (EOS EBADF)
  else
    e <- next_io ;;
    match e with
    | IoErr x => raise (EOS x)
    | _ =>
        let c := firstn (io_count e (length b)) b in
        match n_kind i with
        | KPipe => fun w => (Ok (Z.of_nat (length c)),
                             upd_ino w (o_uid o) (mkIno KPipe (n_data i ++ c) (n_dirty i)))
        | k =>
            let pos := if o_app o then Z.of_nat (length (n_data i)) else o_pos o in
            fun w => (Ok (Z.of_nat (length c)),
                      upd_fd (upd_ino w (o_uid o)
                                (mkIno k (write_at (n_data i) (Z.to_nat pos) c)
                                       (n_dirty i || (negb (o_sync o) && negb (is_nil c)))))
                             fd (Some (set_pos o (pos + Z.of_nat (length c)))))
        end
    end.

(** ftruncate(2) *)
Definition sys_ftruncate (fd : Z) (size : Z) : M unit :=
  oi <- get_fd fd ;;
  let '(o, i) := oi in
  if negb (o_wr o) || (size <? 0) then raise (EOS EINVAL)
  else match n_kind i with
  | KReg =>
      e <- next_io ;;
      match e with
      | IoErr x => raise (EOS x)
      | _ => fun w => (Ok tt, upd_ino w (o_uid o) (mkIno KReg (set_size (n_data i) (Z.to_nat size)) true))
      end
  | _ => raise (EOS EINVAL)
  end.

(** fsync(2), fdatasync(2), fcntl(F_FULLFSYNC): on success the content is on the disk. *)
Definition sys_flush_to_disk (fd : Z) : M unit :=
  oi <- get_fd fd ;;
  let '(o, i) := oi in
  e <- next_io ;;
  match e with
  | IoErr x => raise (EOS x)
  | _ => fun w => (Ok tt, upd_ino w (o_uid o) (mkIno (n_kind i) (n_data i) false))
  end.

(** Checks common to fcntl(F_SETLK / F_SETLKW): descriptor, access mode, range. *)
Definition lock_pre (fd : Z) (shared : bool) (lo : Z) : M uid :=
  oi <- get_fd fd ;;
  let '(o, i) := oi in
  e <- next_io ;;
  match e with
  | IoErr x => raise (EOS x)
  | _ => if lo <? 0 then raise (EOS EINVAL)
         else if (if shared then negb (o_rd o) else negb (o_wr o)) then raise (EOS EBADF)
         else ret (o_uid o)
  end.

(** One attempt at setting the lock (without waiting): [false] = conflict. *)
Definition lock_attempt (u : uid) (shared : bool) (lo len : Z) : M bool :=
  fun w => match ksetlk (w_kern w) (w_pid w) u shared lo (kend lo len) with
           | Some K => (Ok true, set_kern w K)
           | None => (Ok false, w)
           end.

(** fcntl(F_UNLCK) *)
Definition sys_unlock (fd : Z) (lo len : Z) : M unit :=
  oi <- get_fd fd ;;
  let '(o, i) := oi in
  e <- next_io ;;
  match e with
  | IoErr x => raise (EOS x)
  | _ => if lo <? 0 then raise (EOS EINVAL)
         else fun w => (Ok tt, set_kern w (kunlock (w_kern w) (w_pid w) (o_uid o) lo (kend lo len)))
  end.

(** * The rest of the system *)

(** Two registry records that cannot coexist. *)
Definition lk_clash (a b : lockrec) : bool :=
  negb (lk_shared a && lk_shared b)
  && areas_overlap (lk_start a) (lk_end a) (lk_start b) (lk_end b).

(** Other threads go through the registry too: they cannot get a lock clashing
    with one of ours, nor touch our records. *)
Definition env_locks (handle : Z) (cur new : list lockrec) : list lockrec :=
  let mine := filter (fun lk => lk_handle lk =? handle) cur in
  mine ++ filter (fun lk => negb (lk_handle lk =? handle)
                            && negb (existsb (lk_clash lk) mine)) new.

(** One wait of the process, on behalf of stream [handle] of file [u]. *)
Definition apply_env (u : uid) (handle : Z) (ev : envev) (w : world) : world :=
  let w1 := set_clock w (w_clock w + ev_dt ev) in
  let w2 := match ev_kern ev with
            | None => w1
            | Some K => set_kern w1 (filter (fun s => k_pid s =? w_pid w) (w_kern w)
                                     ++ filter (fun s => negb (k_pid s =? w_pid w)) K)
            end in
  let w3 := match ev_locks ev, r_map (w_reg w2) u with
            | Some L, Some e =>
                set_reg w2 (reg_set (w_reg w2) u
                              (Some (mkEntry (env_locks handle (e_locks e) L) (e_data e) (e_waiting e))))
            | _, _ => w2
            end in
  match ev_data ev, w_inodes w3 u with
  | Some d, Some i => upd_ino w3 u (mkIno (n_kind i) d true)
  | _, _ => w3
  end.
