(** Model of rsopen, rsfile_factories.py:207-341, on unix: from the arguments to
    the stream returned.  No proofs here. *)
From Coq Require Import ZArith List Bool Ascii.
From Verif Require Import M_Base M_Modes M_Registry M_Kernel M_World M_Raw.
Import ListNotations.
Open Scope Z_scope.

(** The arguments of rsopen that matter; ill-typed values are rejected at lines
    210-220 before anything else and are not represented.
    [a_opener]: None if no opener is given, else what it returned (what it did to the
    world is supposed done).  [a_enc], [a_errs], [a_nl]: encoding / errors / newline is not
    None.  [a_text_error]: what TextIOWrapper raises for these (unknown encoding, illegal
    newline...), _pyio_py312_backup.py:2005-2037. *)
Record openargs : Type := mkOA {
  a_name : pyname; a_mode : list ascii; a_fileno : option Z; a_handle : option Z; a_closefd : bool;
  a_opener : option Z; a_buffering : option Z; a_locking : bool; a_timeout : parg;
  a_thread_safe : bool; a_mutex : bool; a_enc : bool; a_errs : bool; a_nl : bool;
  a_text_error : option exn }.

(** What is returned: the raw stream, the class put around it, its buffer
    size, and whether text and thread-safe layers are added. *)
Inductive layer : Type := LRaw | LReader | LWriter | LRandom.
Record stream : Type := mkStream {
  st_raw : rawio; st_layer : layer; st_bufsize : Z; st_text : bool; st_line_buffering : bool;
  st_safe : bool }.

(** isatty, rsfileio_abstract.py:247-250, 314-316 and rsfileio_unix.py:190-192
    ([assert self._fileno]).  No file of the model is a terminal. *)
Definition raw_isatty (f : rawio) : M bool :=
  check_closed f ;; if fd_of f =? 0 then raise EAssert else ret false.

(** Lines 297-308 *)
Definition buffer_size (f : rawio) (buffering : Z) : M Z :=
  if buffering <? 0 then
    if fd_of f =? 0 then ret DEFAULT_BUFFER_SIZE
    else fun w => match w_fds w (fd_of f) with
                  | None => (Ok DEFAULT_BUFFER_SIZE, w)
                  | Some _ => (Ok (if 1 <? w_blk w then w_blk w else DEFAULT_BUFFER_SIZE), w)
                  end
  else ret buffering.

(** Constructors of the buffered classes: BufferedRandom checks seekability
    (_pyio_py312_backup.py:1413-1416). Lines 318-325. *)
Definition make_buffer (f : rawio) : M layer :=
  if f_readable f && f_writable f then check_seekable f ;; ret LRandom
  else if f_writable f then ret LWriter
  else if f_readable f then ret LReader
  else raise EBadValue.

(** RSTextIOWrapper(...), line 332: argument errors, then [buffer.tell()] if the
    stream is seekable and writable (_pyio_py312_backup.py:2062-2064). *)
Definition make_text (f : rawio) (text_error : option exn) : M unit :=
  match text_error with
  | Some e => raise e
  | None => if f_seekable f && f_writable f then raw_tell f ;; ret tt else ret tt
  end.

(** The body of the try block, lines 280-338 *)
Definition open_body (a : openargs) (ek : ext_kwargs) (f : rawio) : M stream :=
  (if f_seekable f then
     (if a_locking a then raw_lock_file f (a_timeout a) PNone PNone 0 SNone ;; ret tt else ret tt) ;;
     (if ek_truncate ek then raw_truncate f (Some 0) ;; ret tt else ret tt)
   else ret tt) ;;
  let b0 := match a_buffering a with None => -1 | Some b => b end in
  line <- (if b0 =? 1 then ret true
           else if b0 <? 0 then raw_isatty f
           else ret false) ;;
  b <- buffer_size f (if line : bool then -1 else b0) ;;
  if b <? 0 then raise EAssert
  else if b =? 0 then
    (if ek_binary ek then ret (mkStream f LRaw 0 false false (a_thread_safe a))
     else raise EBadValue)
  else
    l <- make_buffer f ;;
    if ek_binary ek then ret (mkStream f l b false false (a_thread_safe a))
    else
      make_text f (a_text_error a) ;;
      ret (mkStream f l b true line (a_thread_safe a)).

(** Lines 277-341: [result.close()] closes the raw stream, directly or through the
    buffer (whose buffers are still empty).  A call that never returns does not
    reach the handler. *)
Definition open_wrap (a : openargs) (ek : ext_kwargs) (f : rawio) : M stream :=
  fun w => match open_body a ek f w with
           | (Ok s, w') => (Ok s, w')
           | (Err EHang, w') => (Err EHang, w')
           | (Err e, w') => match raw_close f w' with
                            | (Ok _, w'') => (Err e, w'')
                            | (Err e', w'') => (Err e', w'')
                            end
           end.

(** The whole function; [py_u] as in M_Modes. *)
Definition rsopen (py_u : bool) (a : openargs) : M stream :=
  match rsopen_prelude py_u (a_name a) (a_mode a) (a_fileno a) (a_handle a) (a_closefd a)
          (a_opener a) (a_thread_safe a) (a_mutex a) (a_enc a) (a_errs a) (a_nl a) with
  | Err e => raise e
  | Ok (rk, ek) => f <- raw_open rk ;; open_wrap a ek f
  end.
