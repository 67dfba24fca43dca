(** Model of the opening and closing of raw streams on windows, with the two tables that a
    process has there: handles (system) and C descriptors (C runtime library).
    rsfileio_windows.py:80-213, 279-306 under rsfileio_abstract.py:70-232.  The system part is
    the contract of CreateFile, CloseHandle (rsbackend/windows_ctypes.py:73-97) and of the C
    runtime (msvcrt.open_osfhandle, get_osfhandle, os.close).  No proofs here. *)
From Coq Require Import ZArith List Bool Ascii.
From Verif Require Import M_Base M_Modes M_World.
Import ListNotations.
Open Scope Z_scope.

Definition EACCES : Z := 13.

(** What a handle refers to: a file, or a pipe in blocking mode or not. *)
Inductive wtarget : Type := WFile (id : Z) | WPipe (blocking : bool).
Record hobj : Type := mkHobj { ho_target : wtarget; ho_rd : bool; ho_wr : bool; ho_sync : bool; ho_inh : bool }.

Record wsys : Type := mkWsys {
  ws_names : list ascii -> option Z;               (* directory entries *)
  ws_files : Z -> option (list byte * bool);       (* content, read-only attribute; None: a directory *)
  ws_handles : Z -> option hobj;
  ws_crt : list (option Z);                        (* C descriptor (index) -> handle *)
  ws_newh : list Z;                                (* handles that CreateFile will return *)
  ws_newid : list Z;                               (* identities of the files to be created *)
  ws_io : list ioev }.                             (* outcomes of the next system calls *)

Definition ws_set_names s x := mkWsys x (ws_files s) (ws_handles s) (ws_crt s) (ws_newh s) (ws_newid s) (ws_io s).
Definition ws_set_files s x := mkWsys (ws_names s) x (ws_handles s) (ws_crt s) (ws_newh s) (ws_newid s) (ws_io s).
Definition ws_set_handles s x := mkWsys (ws_names s) (ws_files s) x (ws_crt s) (ws_newh s) (ws_newid s) (ws_io s).
Definition ws_set_crt s x := mkWsys (ws_names s) (ws_files s) (ws_handles s) x (ws_newh s) (ws_newid s) (ws_io s).
Definition ws_set_newh s x := mkWsys (ws_names s) (ws_files s) (ws_handles s) (ws_crt s) x (ws_newid s) (ws_io s).
Definition ws_set_newid s x := mkWsys (ws_names s) (ws_files s) (ws_handles s) (ws_crt s) (ws_newh s) x (ws_io s).
Definition ws_set_io s x := mkWsys (ws_names s) (ws_files s) (ws_handles s) (ws_crt s) (ws_newh s) (ws_newid s) x.

Definition H (A : Type) : Type := comp wsys A.

Definition ws_next : H ioev :=
  fun s => match ws_io s with [] => (Ok IoFull, s) | e :: r => (Ok e, ws_set_io s r) end.

(** * The system *)

Inductive disposition : Type := CreateNew | OpenExisting | OpenAlways.

Definition peqb (a b : list ascii) : bool := if list_eq_dec ascii_dec a b then true else false.

(** A handle that is not in use, or "too many open files". *)
Definition new_handle (o : hobj) : H Z :=
  fun s => match ws_newh s with
           | [] => (Err (EOS EMFILE), s)
           | h :: r =>
               match ws_handles s h with
               | Some _ => (Err (EOS EMFILE), s)
               | None => if h <=? 0 then (Err (EOS EMFILE), s)
                         else (Ok h, ws_set_newh (ws_set_handles s (upd Z.eqb (ws_handles s) h (Some o))) r)
               end
           end.

(** CreateFile(path, access, share everything, security, disposition, attributes),
    windows_ctypes.py:73-88. *)
Definition create_file (p : list ascii) (rd wr : bool) (disp : disposition) (inh sync ro : bool) : H Z :=
  e <- ws_next ;;
  match e with
  | IoErr n => raise (EOS n)
  | _ => fun s =>
      match ws_names s p with
      | Some id =>
          match disp with
          | CreateNew => (Err (EOS EEXIST), s)
          | _ => match ws_files s id with
                 | None => (Err (EOS EACCES), s)
                 | Some (_, readonly) =>
                     if readonly && wr then (Err (EOS EACCES), s)
                     else new_handle (mkHobj (WFile id) rd wr sync inh) s
                 end
          end
      | None =>
          match disp with
          | OpenExisting => (Err (EOS ENOENT), s)
          | _ => match ws_newid s with
                 | [] => (Err (EOS ENOSPC), s)
                 | id :: r =>
                     match ws_files s id with
                     | Some _ => (Err (EOS ENOSPC), s)
                     | None =>
                         match new_handle (mkHobj (WFile id) rd wr sync inh) s with
                         | (Ok h, s1) =>
                             (Ok h, ws_set_newid (ws_set_files (ws_set_names s1 (upd peqb (ws_names s1) p (Some id)))
                                                               (upd Z.eqb (ws_files s1) id (Some ([], ro)))) r)
                         | (Err x, s1) => (Err x, s1)
                         end
                     end
                 end
          end
      end
  end.

(** CloseHandle(h), windows_ctypes.py:91-95 (ERROR_INVALID_HANDLE is EBADF). *)
Definition close_handle (h : Z) : H unit :=
  fun s => match ws_handles s h with
           | None => (Err (EOS EBADF), s)
           | Some _ => (Ok tt, ws_set_handles s (upd Z.eqb (ws_handles s) h None))
           end.

(** The first free C descriptor. *)
Fixpoint first_free (l : list (option Z)) : option nat :=
  match l with
  | [] => None
  | None :: _ => Some O
  | Some _ :: r => option_map S (first_free r)
  end.
(** msvcrt.open_osfhandle(handle, flags): a C descriptor for the handle. *)
Definition open_osfhandle (h : Z) : H Z :=
  fun s => match first_free (ws_crt s) with
           | None => (Err (EOS EMFILE), s)
           | Some d => (Ok (Z.of_nat d), ws_set_crt s (nth_update (ws_crt s) d (Some h)))
           end.
(** The handle of a C descriptor. *)
Definition crt_handle (s : wsys) (d : Z) : option Z :=
  if d <? 0 then None else nth (Z.to_nat d) (ws_crt s) None.
(** msvcrt.get_osfhandle(fd) *)
Definition get_osfhandle (d : Z) : H Z :=
  fun s => match crt_handle s d with None => (Err (EOS EBADF), s) | Some h => (Ok h, s) end.
(** os.get_blocking(fd): fails on what is not a pipe. *)
Definition get_blocking (d : Z) : H bool :=
  fun s => match crt_handle s d with
           | None => (Err (EOS EBADF), s)
           | Some h => match ws_handles s h with
                       | Some (mkHobj (WPipe b) _ _ _ _) => (Ok b, s)
                       | _ => (Err (EOS EBADF), s)
                       end
           end.
(** os.fstat(fd).st_mode: is it a regular file? *)
Definition crt_is_regular (d : Z) : H bool :=
  fun s => match crt_handle s d with
           | None => (Err (EOS EBADF), s)
           | Some h => match ws_handles s h with
                       | None => (Err (EOS EBADF), s)
                       | Some o => (Ok (match ho_target o with WFile _ => true | _ => false end), s)
                       end
           end.
(** os.close(fd): frees the descriptor and closes its handle. *)
Definition crt_close (d : Z) : H unit :=
  fun s => match crt_handle s d with
           | None => (Err (EOS EBADF), s)
           | Some h => close_handle h (ws_set_crt s (nth_update (ws_crt s) (Z.to_nat d) None))
           end.

(** * The raw stream *)

(** _fileno, _handle, _closefd, _readable, _writable, _append, _seekable, closed,
    _use_nonblocking_pipe_write_hack; rsfileio_abstract.py:114-124, 180, rsfileio_windows.py:178. *)
Record wst : Type := mkWst {
  z_fileno : option Z; z_handle : option Z; z_closefd : bool; z_readable : bool; z_writable : bool;
  z_append : bool; z_seekable : bool; z_closed : bool; z_hack : bool }.
Definition z_set_fileno z x := mkWst x (z_handle z) (z_closefd z) (z_readable z) (z_writable z) (z_append z) (z_seekable z) (z_closed z) (z_hack z).
Definition z_set_handle z x := mkWst (z_fileno z) x (z_closefd z) (z_readable z) (z_writable z) (z_append z) (z_seekable z) (z_closed z) (z_hack z).
Definition z_set_seekable z x := mkWst (z_fileno z) (z_handle z) (z_closefd z) (z_readable z) (z_writable z) (z_append z) x (z_closed z) (z_hack z).
Definition z_set_closed z := mkWst (z_fileno z) (z_handle z) (z_closefd z) (z_readable z) (z_writable z) (z_append z) (z_seekable z) true (z_hack z).
Definition z_set_hack z := mkWst (z_fileno z) (z_handle z) (z_closefd z) (z_readable z) (z_writable z) (z_append z) (z_seekable z) (z_closed z) true.

(** A method that may change the attributes of the stream. *)
Definition Meth (A : Type) : Type := wst -> wsys -> res A * wst * wsys.

(** rsfileio_windows.py:124-130 *)
Definition win_disposition (rk : raw_kwargs) : disposition :=
  if rk_must_not_create rk then OpenExisting else if rk_must_create rk then CreateNew else OpenAlways.

(** rsfileio_windows.py:99-176: where the handle comes from.  [ro]: the permissions lack
    S_IWUSR (lines 139-142). *)
Definition win_obtain (rk : raw_kwargs) (ro : bool) : Meth unit :=
  fun z s =>
    let write := rk_write rk || rk_append rk in
    match rk_handle rk, rk_fileno rk, rk_path rk with
    | Some h, _, _ => (Ok tt, z_set_handle z (Some h), s)
    | None, Some fd, _ =>
        match get_osfhandle fd s with
        | (Ok h, s1) => (Ok tt, z_set_handle (z_set_fileno z (Some fd)) (Some h), s1)
        | (Err e, s1) => (Err e, z_set_fileno z (Some fd), s1)
        end
    | None, None, NPath p =>
        match create_file p (rk_read rk) write (win_disposition rk) (rk_inheritable rk) (rk_synchronized rk) ro s with
        | (Ok h, s1) => (Ok tt, z_set_handle z (Some h), s1)
        | (Err e, s1) => (Err e, z, s1)
        end
    | None, None, _ => (Err EType, z, s)
    end.

(** rsfileio_windows.py:178-188.  [blk]: BLOCKING_MODES_ENABLED, line 28. *)
Definition win_pipe_hack (blk : bool) : Meth unit :=
  fun z s =>
    if z_writable z && blk then
      match z_handle z with
      | None => (Err EType, z, s)
      | Some h =>
          match open_osfhandle h s with
          | (Err e, s1) => (Err e, z, s1)
          | (Ok d, s1) =>
              match get_blocking d s1 with
              | (Ok false, s2) => (Ok tt, z_set_hack (z_set_fileno z (Some d)), s2)
              | (_, s2) => (Ok tt, z, s2)
              end
          end
      end
    else (Ok tt, z, s).

(** seek(0, SEEK_END) of __init__, rsfileio_abstract.py:190-196 (the position itself is in
    M_Windows). *)
Definition win_seek_end : H unit :=
  e <- ws_next ;;
  match e with
  | IoErr n => if n =? ESPIPE then ret tt else raise (EOS n)
  | _ => ret tt
  end.

(** __init__, rsfileio_abstract.py:70-196 *)
Definition win_init (blk : bool) (rk : raw_kwargs) (ro : bool) (s : wsys) : res unit * wst * wsys :=
  let z0 := mkWst None None (rk_closefd rk) (rk_read rk) (rk_write rk || rk_append rk) (rk_append rk) false false false in
  match init_checks rk with
  | Err e => (Err e, z0, s)
  | Ok _ =>
      match win_obtain rk ro z0 s with
      | (Err e, z1, s1) => (Err e, z1, s1)
      | (Ok _, z1, s1) =>
          match win_pipe_hack blk z1 s1 with
          | (Err e, z2, s2) => (Err e, z2, s2)
          | (Ok _, z2, s2) =>
              let '(r, s3) := match z_fileno z2 with
                              | Some d => crt_is_regular d s2
                              | None => (Ok true, s2)
                              end in
              match r with
              | Err e => (Err e, z2, s3)
              | Ok seekable =>
                  let z3 := z_set_seekable z2 seekable in
                  if rk_append rk then
                    let '(r4, s4) := win_seek_end s3 in (r4, z3, s4)
                  else (Ok tt, z3, s3)
              end
          end
      end
  end.

(** _inner_close_streams, rsfileio_windows.py:195-213; OSError of os.close becomes EBADF. *)
Definition win_close_streams (z : wst) : H unit :=
  if z_closefd z then
    match z_fileno z, z_handle z with
    | Some d, _ => fun s => match crt_close d s with (Ok _, s1) => (Ok tt, s1) | (Err _, s1) => (Err (EOS EBADF), s1) end
    | None, Some h => close_handle h
    | None, None => ret tt
    end
  else ret tt.
(** close(), rsfileio_abstract.py:207-226; the locks are in M_WinLocks. *)
Definition win_close : Meth unit :=
  fun z s =>
    if z_closed z then (Ok tt, z, s)
    else let '(r, s1) := win_close_streams z s in (r, z_set_closed z, s1).

(** RSFileIO(...); a half-built object is closed by its finalizer (see M_Raw.raw_open). *)
Definition win_open (blk : bool) (rk : raw_kwargs) (ro : bool) : H wst :=
  fun s =>
    match win_init blk rk ro s with
    | (Ok _, z, s1) => (Ok z, s1)
    | (Err e, z, s1) => (Err e, snd (win_close z s1))
    end.

(** fileno(), rsfileio_abstract.py:314-316, rsfileio_windows.py:279-302; a C descriptor
    is made at the first call.  [assert self._fileno] refuses 0. *)
Definition win_fileno : Meth Z :=
  fun z s =>
    if z_closed z then (Err EValue, z, s)
    else
      match z_fileno z with
      | Some d => if d =? 0 then (Err EAssert, z, s) else (Ok d, z, s)
      | None =>
          match z_handle z with
          | None => (Err EType, z, s)
          | Some h =>
              match open_osfhandle h s with
              | (Err e, s1) => (Err e, z, s1)
              | (Ok d, s1) =>
                  let z1 := z_set_fileno z (Some d) in
                  if d =? 0 then (Err EAssert, z1, s1) else (Ok d, z1, s1)
              end
          end
      end.
(** handle(), rsfileio_abstract.py:318-320, rsfileio_windows.py:304-306 *)
Definition win_handle : Meth Z :=
  fun z s =>
    if z_closed z then (Err EValue, z, s)
    else match z_handle z with
         | Some h => if h =? 0 then (Err EAssert, z, s) else (Ok h, z, s)
         | None => (Err EAssert, z, s)
         end.
(** isatty(), rsfileio_abstract.py:247-250: os.isatty(self.fileno()); rsopen calls it when the
    buffering is not given (rsfile_factories.py:294). *)
Definition win_isatty (tty : Z -> bool) : Meth bool :=
  fun z s => match win_fileno z s with
             | (Ok d, z1, s1) => (Ok (tty d), z1, s1)
             | (Err e, z1, s1) => (Err e, z1, s1)
             end.
