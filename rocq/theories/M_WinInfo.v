(** Model of unique_id() and times() of raw streams on windows, with both backends.
    rsfileio_windows.py:242-277, 308-327 under rsfileio_abstract.py:322-334; the error converter,
    rsfileio_windows.py:39-66.  The information itself is the system's ([info]).  No proofs here. *)
From Coq Require Import ZArith List Bool Ascii.
From Verif Require Import M_Base M_Modes M_World M_Util M_WinHandles.
Import ListNotations.
Open Scope Z_scope.

Inductive backend : Type := Ctypes | Pywin32.

(** BY_HANDLE_FILE_INFORMATION: what is used of it; the times as (low, high). *)
Record hinfo : Type := mkHinfo {
  hi_serial : Z; hi_low : Z; hi_high : Z; hi_access : Z * Z; hi_write : Z * Z }.

(** ERROR_NOT_SUPPORTED, rsbackend/raw_win32_defines.py:6 *)
Definition ERROR_NOT_SUPPORTED : Z := 50.
(** The errno in the exception that [_win32_error_converter] raises for the win32 error [n] made
    by rsfile itself, rsfileio_windows.py:51-56: WindowsError (windows_ctypes.py:72) is given [n] as errno,
    pywintypes.error has no errno. *)
Definition converted (be : backend) (n : Z) : Z :=
  match be with Ctypes => n | Pywin32 => winerror_to_errno n end.

Section Info.
  Variable info : wtarget -> hinfo.
  Variable be : backend.

  (** GetFileInformationByHandle: windows_ctypes.py:98-106; windows_pywin32.py:64-95, which
      looks at the times through a C descriptor of its own. *)
  Definition get_information (h : Z) : H hinfo :=
    e <- ws_next ;;
    match e with
    | IoErr n => raise (EOS n)
    | _ => fun s =>
        match ws_handles s h with
        | None => (Err (EOS EBADF), s)
        | Some o =>
            match be with
            | Ctypes => (Ok (info (ho_target o)), s)
            | Pywin32 =>
                match open_osfhandle h s with
                | (Err e, s1) => (Err e, s1)
                | (Ok d, s1) => match crt_is_regular d s1 with    (* os.fstat(d) *)
                                | (Err e, s2) => (Err e, s2)
                                | (Ok _, s2) => (Ok (info (ho_target o)), s2)
                                end
                end
            end
        end
    end.

  (** _inner_unique_id, rsfileio_windows.py:265-277 *)
  Definition inner_unique_id (h : Z) : H (Z * Z) :=
    i <- get_information h ;;
    let inode := double_dwords_to_pyint (hi_low i) (hi_high i) 32 in
    if (hi_serial i <=? 0) || (inode <=? 0) then raise (EOS (converted be ERROR_NOT_SUPPORTED))
    else ret (hi_serial i, inode).
  (** _inner_times, 309-327; exact numbers of 100 ns since 1970 (see M_Util) *)
  Definition inner_times (h : Z) : H (Z * Z) :=
    i <- get_information h ;;
    ret (win32_filetime_to_ticks (fst (hi_access i)) (snd (hi_access i)),
         win32_filetime_to_ticks (fst (hi_write i)) (snd (hi_write i))).

  (** The stream with its attribute _unique_id, rsfileio_abstract.py:123. *)
  Record wsi : Type := mkWsi { i_z : wst; i_uid : option (Z * Z) }.
  Definition IMeth (A : Type) : Type := wsi -> wsys -> res A * wsi * wsys.

  (** unique_id(), rsfileio_abstract.py:322-327 *)
  Definition win_unique_id : IMeth (Z * Z) :=
    fun z s =>
      if z_closed (i_z z) then (Err EValue, z, s)
      else match i_uid z with
           | Some u => (Ok u, z, s)
           | None =>
               match z_handle (i_z z) with
               | None => (Err EType, z, s)
               | Some h => match inner_unique_id h s with
                           | (Ok u, s1) => (Ok u, mkWsi (i_z z) (Some u), s1)
                           | (Err e, s1) => (Err e, z, s1)
                           end
               end
           end.
  (** times(), rsfileio_abstract.py:331-333 *)
  Definition win_times : IMeth (Z * Z) :=
    fun z s =>
      if z_closed (i_z z) then (Err EValue, z, s)
      else match z_handle (i_z z) with
           | None => (Err EType, z, s)
           | Some h => let '(r, s1) := inner_times h s in (r, z, s1)
           end.
  (** close(): M_WinHandles *)
  Definition win_iclose : IMeth unit :=
    fun z s => let '(r, z1, s1) := win_close (i_z z) s in (r, mkWsi z1 (i_uid z), s1).
End Info.
