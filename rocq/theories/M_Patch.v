(** Model of the [mode] attribute of raw streams and of rsfile_utilities.py:8-38: what takes
    the place of open() and of FileIO after monkey patching.  No proofs here. *)
From Coq Require Import ZArith List Bool Ascii.
From Verif Require Import M_Base M_Modes M_Registry M_Kernel M_World M_Raw M_Open.
Import ListNotations.
Open Scope Z_scope.
Open Scope char_scope.

(** mode, rsfileio_abstract.py:266-294 (HAS_X_OPEN_FLAG holds since python 3.3).
    [must_create]: _must_create, set at line 124. *)
Definition mode_attr (must_create : bool) (f : rawio) : res (list ascii) :=
  if f_closed f then Ok ["c"; "l"; "o"; "s"; "e"; "d"]
  else if must_create then
    (if f_writable f && f_readable f then Ok ["x"; "b"; "+"] else Ok ["x"; "b"])
  else if f_append f then
    (if f_readable f then Ok ["a"; "b"; "+"] else Ok ["a"; "b"])
  else if f_writable f then
    (if f_readable f then Ok ["r"; "b"; "+"] else Ok ["w"; "b"])
  else if f_readable f then Ok ["r"; "b"] else Err EAssert.

(** The keywords of the call that rsfile_utilities.py:14 gives other defaults. *)
Record patch_kw : Type := mkPK {
  pk_handle : option (option Z); pk_locking : option bool; pk_timeout : option parg;
  pk_thread_safe : option bool; pk_mutex : option bool }.
Definition or_default {A} (x : option A) (d : A) : A := match x with Some y => y | None => d end.

(** Lines 14-16: [params] updated with the keywords of the call. *)
Definition patched_args (kw : patch_kw) (a : openargs) : openargs :=
  mkOA (a_name a) (a_mode a) (a_fileno a) (or_default (pk_handle kw) None) (a_closefd a) (a_opener a)
       (a_buffering a) (or_default (pk_locking kw) false) (or_default (pk_timeout kw) (PInt 0))
       (or_default (pk_thread_safe kw) false) (or_default (pk_mutex kw) false)
       (a_enc a) (a_errs a) (a_nl a) (a_text_error a).
Definition with_fileno (a : openargs) (n : Z) : openargs :=
  mkOA (a_name a) (a_mode a) (Some n) (a_handle a) (a_closefd a) (a_opener a) (a_buffering a) (a_locking a)
       (a_timeout a) (a_thread_safe a) (a_mutex a) (a_enc a) (a_errs a) (a_nl a) (a_text_error a).

(** BUILTIN_OPEN_FUNC_REPLACEMENT, rsfile_utilities.py:8-17.  [extra]: the positional arguments
    from the seventh on (as integers; True is 1, False is 0).  By the order of rsopen's
    parameters (rsfile_factories.py:11-27) the seventh is [fileno], the eighth [handle], which
    line 14 always gives as a keyword too: TypeError. *)
Definition patched_open (py_u : bool) (extra : list Z) (kw : patch_kw) (a : openargs) : M stream :=
  match extra with
  | [] => rsopen py_u (patched_args kw a)
  | [n] => match a_fileno a with
           | Some _ => raise EType
           | None => rsopen py_u (patched_args kw (with_fileno a n))
           end
  | _ => raise EType
  end.

(** RSFileIOWrapper, rsfile_utilities.py:25-38.  If truncate() raises, the object is dropped
    and its finalizer closes it, as for [raw_open]. *)
Definition file_io (py_u : bool) (name : pyname) (mode : list ascii) (closefd : bool) : M rawio :=
  match parse_standard_args py_u name mode None None closefd with
  | Err e => raise e
  | Ok (rk, ek) =>
      if ek_text ek then raise EBadValue
      else
        f <- raw_open rk ;;
        fun w => if f_seekable f && ek_truncate ek
                 then match raw_truncate f (Some 0) w with
                      | (Ok _, w') => (Ok f, w')
                      | (Err e, w') => (Err e, snd (raw_close f w'))
                      end
                 else (Ok f, w)
  end.
