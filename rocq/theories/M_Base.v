(** Common vocabulary of the model: Python exceptions as values.
    No proofs here. *)
From Coq Require Import ZArith List Bool.
Import ListNotations.

(** Python exceptions raised by the modelled code (classes, not messages).
    - [EBadValue]  : defs.BadValueTypeError, rsfile_definitions.py:29-30
    - [EValue]     : ValueError (closed stream, _pyio)
    - [EType]      : TypeError
    - [ERuntime]   : RuntimeError
    - [EAssert]    : AssertionError
    - [EUnsupported]: io.UnsupportedOperation (_pyio _unsupported)
    - [EOS n]      : OSError/IOError with errno n (n = 0 when raised without errno,
                     e.g. rsfileio_abstract.py:560)
    - [ELocking n] : defs.LockingException (subclass of IOError), rsfile_definitions.py:33
    - [EBlocking n]: BlockingIOError carrying characters_written = n (_pyio BufferedWriter)
    - [EKey]       : KeyError
    - [EUser n]    : an exception raised by the caller's own code (body of a with-block)
    - [EHang]      : not an exception: the call never returns (it blocks or
                     loops for as long as the environment trace lasts).
    - [EFuel]      : not an exception: a bound on a loop of the model was too
                     small (proved impossible where such bounds are used). *)
Inductive exn : Type :=
| EBadValue | EValue | EType | ERuntime | EAssert | EUnsupported
| EOS (errno : Z) | ELocking (errno : Z) | EBlocking (written : Z)
| EKey | EUser (n : Z) | EHang | EFuel.

Inductive res (A : Type) : Type :=
| Ok (a : A)
| Err (e : exn).
Arguments Ok {A} a.
Arguments Err {A} e.

(** errno values used by the model (linux numbering). *)
Definition EPERM : Z := 1.
Definition ENOENT : Z := 2.
Definition EIO : Z := 5.
Definition EBADF : Z := 9.
Definition EAGAIN : Z := 11.
Definition EEXIST : Z := 17.
Definition EMFILE : Z := 24.
Definition EPIPE : Z := 32.
Definition EISDIR : Z := 21.
Definition EINVAL : Z := 22.
Definition ENOSPC : Z := 28.
Definition ESPIPE : Z := 29.

(** Total maps with point update: the representation of Python dicts and of
    kernel tables in the model. *)
Definition upd {K V : Type} (eqb : K -> K -> bool) (m : K -> V) (k : K) (v : V) : K -> V :=
  fun k' => if eqb k k' then v else m k'.

(** unique_id of a file: (device, inode), rsfileio_unix.py:198-215. *)
Definition uid : Type := (Z * Z)%type.
Definition uid_eqb (a b : uid) : bool :=
  Z.eqb (fst a) (fst b) && Z.eqb (snd a) (snd b).

(** [nth_update l n x] replaces the n-th element (no change if out of range). *)
Fixpoint nth_update {A : Type} (l : list A) (n : nat) (x : A) : list A :=
  match l, n with
  | [], _ => []
  | _ :: t, O => x :: t
  | h :: t, S n' => h :: nth_update t n' x
  end.
