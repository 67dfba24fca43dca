(** Model of the permissions of files: the argument [permissions] of rsopen, on unix.  The access rights of a process
    are those of the owner of all files, or of root.  No proofs here. *)
From Coq Require Import ZArith List Bool Ascii.
From Verif Require Import M_Base M_Modes M_World M_WinHandles.
Import ListNotations.
Open Scope Z_scope.

(** Permission bits of the regular files by name, mask of the process (umask), and whether it is root. *)
Record pfs : Type := mkPfs { pf_perms : list ascii -> option Z; pf_umask : Z; pf_root : bool }.

(** The owner's bits 0o400 and 0o200. *)
Definition owner_reads (m : Z) : bool := Z.testbit m 8.
Definition owner_writes (m : Z) : bool := Z.testbit m 7.
(** The access checks of open(2). *)
Definition may_open (s : pfs) (m : Z) (fl : oflags) : bool :=
  pf_root s || ((negb (of_rd fl) || owner_reads m) && (negb (of_wr fl) || owner_writes m)).

(** open(2): contract of unix.open(path, flags, permissions), rsfileio_unix.py:123.  The bits of a new file are
    [perms & ~umask], of which the system keeps twelve; they are not looked at by the call that makes the file. *)
Definition perms_open (p : list ascii) (fl : oflags) (perms : Z) (s : pfs) : res oflags * pfs :=
  match pf_perms s p with
  | None => if of_creat fl
            then (Ok fl, mkPfs (upd names_eqb (pf_perms s) p (Some (Z.land (Z.land perms 4095) (Z.lnot (pf_umask s)))))
                               (pf_umask s) (pf_root s))
            else (Err (EOS ENOENT), s)
  | Some m => if of_creat fl && of_excl fl then (Err (EOS EEXIST), s)
              else if may_open s m fl then (Ok fl, s) else (Err (EOS EACCES), s)
  end.

(** rsopen(p, mode, permissions=perms), rsfile_factories.py:206-276, rsfileio_abstract.py:83-185, rsfileio_unix.py:76-123:
    up to the opening of the file.  What follows works on the descriptor. *)
Definition rsopen_perms (py_u : bool) (p mode : list ascii) (perms : Z) (s : pfs) : res oflags * pfs :=
  match rsopen_prelude py_u (NPath p) mode None None true None true false false false false with
  | Err e => (Err e, s)
  | Ok (rk, _) => match init_checks rk with
                  | Err e => (Err e, s)
                  | Ok _ => perms_open p (unix_open_flags rk) perms s
                  end
  end.
(** 0o777: the default of rsopen (rsfile_factories.py:26), also for the open() put in the place of the one of python
    (rsfile_utilities.py:14), FileIO (lines 25-38) and the functions on whole files. *)
Definition default_perms : Z := 511.
(** open(p, mode) of python: _pyio_py312_backup.py:1563, 0o666. *)
Definition pyio_open_perms (p mode : list ascii) (s : pfs) : res oflags * pfs :=
  match pyio_open_mode mode with
  | Err e => (Err e, s)
  | Ok (fl, _) => perms_open p fl 438 s
  end.
