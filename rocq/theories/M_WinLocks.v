(** Model of file locking on windows: one attempt of lock_file(), unlock_file() and close()
    (rsfileio_abstract.py:207-232, 534-663) over rsfileio_windows.py:425-478, with the registry of
    the process (M_Registry), where streams are known by their handle
    (rsfileio_windows.py:190-193).  The system part is the contract of LockFileEx and UnlockFileEx.
    No proofs here. *)
From Coq Require Import ZArith List Bool.
From Verif Require Import M_Base M_Util M_Registry M_World.
Import ListNotations.
Open Scope Z_scope.

(** A lock of the system: the handle it was taken through, first byte, number of bytes. *)
Record wlock : Type := mkWl { wl_h : Z; wl_off : Z; wl_len : Z; wl_sh : bool }.

Record wlsys : Type := mkWls {
  wk_reg : registry;             (* IntraProcessLockRegistry *)
  wk_pid : Z;
  wk_locks : list wlock;         (* locks of all handles, of all processes *)
  wk_file : Z -> Z;              (* the file of a handle *)
  wk_strict : bool }.            (* ranges that go beyond 2^64 are refused (ERROR_INVALID_LOCK_RANGE) *)
Definition wk_set_reg s x := mkWls x (wk_pid s) (wk_locks s) (wk_file s) (wk_strict s).
Definition wk_set_locks s x := mkWls (wk_reg s) (wk_pid s) x (wk_file s) (wk_strict s).
Definition L (A : Type) : Type := comp wlsys A.

(** * The system *)

Definition wl_overlap (a b : wlock) : bool :=
  Z.max (wl_off a) (wl_off b) <? Z.min (wl_off a + wl_len a) (wl_off b + wl_len b).
(** "Exclusive locks cannot overlap an existing locked region; shared locks can overlap a
    locked region provided locks held on that region are shared; a shared lock can overlap
    an exclusive lock of the same handle." *)
Definition wl_conflict (file : Z -> Z) (old new : wlock) : bool :=
  (file (wl_h old) =? file (wl_h new)) && wl_overlap old new
  && (if wl_sh new then negb (wl_sh old) && negb (wl_h old =? wl_h new) else true).

(** LockFileEx(handle, LOCKFILE_FAIL_IMMEDIATELY | ..., low, high, overlapped); ERROR_LOCK_VIOLATION
    (33) is EACCES (13), ERROR_INVALID_LOCK_RANGE (307) is EINVAL, rsbackend/_utilities.py:59-138. *)
Definition lock_file_ex (h : Z) (args : Z * Z * Z * Z) (shared : bool) : L unit :=
  fun s =>
    let '(lo, hi, olo, ohi) := args in
    let new := mkWl h (double_dwords_to_pyint olo ohi 32) (double_dwords_to_pyint lo hi 32) shared in
    if wk_strict s && (2 ^ 64 <? wl_off new + wl_len new) then (Err (EOS EINVAL), s)
    else if existsb (fun old => wl_conflict (wk_file s) old new) (wk_locks s) then (Err (EOS 13), s)
    else (Ok tt, wk_set_locks s (wk_locks s ++ [new])).

Fixpoint remove_first {A} (p : A -> bool) (l : list A) : option (list A) :=
  match l with
  | [] => None
  | x :: r => if p x then Some r else option_map (cons x) (remove_first p r)
  end.
(** UnlockFileEx(handle, low, high, overlapped): the range must be that of one lock;
    ERROR_NOT_LOCKED (158) is EACCES. *)
Definition unlock_file_ex (h : Z) (args : Z * Z * Z * Z) : L unit :=
  fun s =>
    let '(lo, hi, olo, ohi) := args in
    let off := double_dwords_to_pyint olo ohi 32 in
    let len := double_dwords_to_pyint lo hi 32 in
    match remove_first (fun k => (wl_h k =? h) && (wl_off k =? off) && (wl_len k =? len)) (wk_locks s) with
    | None => (Err (EOS 13), s)
    | Some l => (Ok tt, wk_set_locks s l)
    end.
(** Closing a handle releases its locks. *)
Definition drop_handle (h : Z) : L unit :=
  fun s => (Ok tt, wk_set_locks s (filter (fun k => negb (wl_h k =? h)) (wk_locks s))).

(** * rsfileio_windows.py *)

(** rsfileio_windows.py:443-466 *)
Definition win_file_lock (h : Z) (length : option Z) (abs_offset : Z) (shared : bool) : L unit :=
  match win32_convert_file_range_arguments length (Some abs_offset) with
  | Err e => raise e
  | Ok a => lock_file_ex h a shared
  end.
(** rsfileio_windows.py:468-478 *)
Definition win_file_unlock (h : Z) (length : option Z) (abs_offset : Z) : L unit :=
  match win32_convert_file_range_arguments length (Some abs_offset) with
  | Err e => raise e
  | Ok a => unlock_file_ex h a
  end.

(** * rsfileio_abstract.py *)

(** _lock_registry_inode is the handle, rsfileio_windows.py:192. *)
Definition huid (h : Z) : uid := (0, h).

(** lock_file(timeout=0, length, offset), rsfileio_abstract.py:534-636, once the arguments are
    checked: both steps are tried once; an OSError of the second becomes a
    LockingException (lines 574-585); on failure the registry lock is given back (lines
    629-634). *)
Definition wlock_once (h : Z) (length : option Z) (abs_offset : Z) (shared : bool) : L unit :=
  fun s =>
    match register_once true (wk_pid s) (wk_reg s) (huid h) h length abs_offset shared with
    | (Err e, r1) => (Err e, wk_set_reg s r1)
    | (Ok false, r1) => (Err (ELocking EPERM), wk_set_reg s r1)
    | (Ok true, r1) =>
        match win_file_lock h length abs_offset shared (wk_set_reg s r1) with
        | (Ok _, s2) => (Ok tt, s2)
        | (Err e, s2) =>
            let x := match e with EOS n => ELocking n | _ => e end in
            match unregister_file_lock (wk_pid s2) (wk_reg s2) (huid h) h length abs_offset with
            | (Ok _, r3, _) => (Err x, wk_set_reg s2 r3)
            | (Err e3, r3, _) => (Err e3, wk_set_reg s2 r3)
            end
        end
    end.

(** unlock_file(length, offset), rsfileio_abstract.py:638-663 *)
Definition wunlock (h : Z) (length : option Z) (abs_offset : Z) : L unit :=
  fun s =>
    match unregister_file_lock (wk_pid s) (wk_reg s) (huid h) h length abs_offset with
    | (Err e, r1, _) => (Err e, wk_set_reg s r1)
    | (Ok _, r1, _) => win_file_unlock h length abs_offset (wk_set_reg s r1)
    end.

(** The loop of close(), rsfileio_abstract.py:219-226 *)
Fixpoint wunlock_all (h : Z) (l : list lockrec) : L unit :=
  match l with
  | [] => ret tt
  | lk :: r =>
      win_file_unlock h (match lk_end lk with None => None | Some e => Some (e - lk_start lk) end) (lk_start lk) ;;
      wunlock_all h r
  end.
(** close() of a stream that owns its handle, rsfileio_abstract.py:207-229 *)
Definition wclose (h : Z) : L unit :=
  fun s =>
    let '(removed, r1) := remove_file_locks (wk_pid s) (wk_reg s) (huid h) h in
    (wunlock_all h removed ;; drop_handle h) (wk_set_reg s r1).
