(** unlock_file() of a raw stream when a signal handler raises (KeyboardInterrupt) at one of its instructions.  No proofs here. *)
From Coq Require Import ZArith List Bool.
From Verif Require Import M_Base M_Modes M_Registry M_Kernel M_World M_Raw M_IntWrite M_IntClose.
Import ListNotations.
Open Scope Z_scope.

(** rsfile_registries.py:197-203 *)
Definition unrecord (u : uid) (fd : Z) (length : option Z) (off : Z) : M unit :=
  fun w => let '(r, reg, _) := unregister_file_lock (w_pid w) (w_reg w) u fd length off in
           (match r with Ok _ => Ok tt | Err e => Err e end, set_reg w reg).
(** rsfileio_abstract.py:640-662 *)
Definition unlock_file_i (f : rawio) (length offset : parg) (whence : Z) : I unit :=
  tick ;;
  in_world (check_seekable f) ;;
  if bad_nonneg length then raise EBadValue
  else if bad_nonneg offset then raise EBadValue
  else if negb (seek_value whence) then raise EBadValue
  else
    tick ;;
    off <- in_world (abs_offset f offset whence) ;;
    tick ;;
    in_world (unrecord (uid_of f) (fd_of f) (parg_opt length) off) ;;
    tick ;;
    unlock_i f (parg_opt length) off.
(** unlock_file() called twice with the same arguments; the handler raises during the first call. *)
Definition unlock_twice_i (f : rawio) (length offset : parg) (whence : Z) (due : option nat) (w : world) : res unit * res unit * world :=
  let '(r, s) := unlock_file_i f length offset whence (mkCst due false w) in
  let '(r', w') := raw_unlock_file f length offset whence (c_world s) in (r, r', w').
