(** The documented exceptions, and sequences of calls with what they raise: C99. *)
From Coq Require Import ZArith List Bool.
From Verif Require Import M_Base M_Modes M_Registry M_Kernel M_World M_Raw M_Buffered M_Open S_Closed.
Import ListNotations.
Open Scope Z_scope.

(** doc/index.rst:23-27: wrong arguments raise ValueError or TypeError, improper workflows
    RuntimeError, and the rest is EnvironmentError (OSError) or a subclass of it:
    LockingException, BlockingIOError, UnsupportedOperation. *)
Definition documented (e : exn) : Prop :=
  match e with
  | EBadValue | EValue | EType | ERuntime | EUnsupported | EOS _ | ELocking _ | EBlocking _ => True
  | _ => False
  end.
(** The system, not the caller, is at fault. *)
Definition environment_error (e : exn) : Prop :=
  match e with EUnsupported | EOS _ | EBlocking _ => True | _ => False end.

(** A call ended by an exception, or waiting for ever. *)
Definition allowed (e : exn) : Prop := documented e \/ e = EHang.

(** The methods of a raw stream. *)
Inductive rmethod : Type :=
| RmSize | RmTell | RmSeek (offset whence : Z) | RmRead (n : option Z) | RmReadinto (n : Z) | RmWrite (b : list Z)
| RmTruncate (size : option Z) | RmFlush | RmSync (has_fdatasync metadata full : bool) | RmIsatty
| RmLock (timeout length offset : parg) (whence : Z) (shared : sarg)
| RmUnlock (length offset : parg) (whence : Z)
| RmClose.

Definition quiet {A} (m : M A) : M unit := m ;; ret tt.
Definition rcall (f : rawio) (m : rmethod) : M unit :=
  match m with
  | RmSize => quiet (raw_size f) | RmTell => quiet (raw_tell f) | RmSeek o wh => quiet (raw_seek f o wh)
  | RmRead n => quiet (raw_read f n) | RmReadinto n => quiet (raw_readinto f n) | RmWrite b => quiet (raw_write f b)
  | RmTruncate s => quiet (raw_truncate f s) | RmFlush => raw_flush f | RmSync h md fu => raw_sync h f md fu
  | RmIsatty => quiet (raw_isatty f)
  | RmLock t l o wh s => quiet (raw_lock_file f t l o wh s) | RmUnlock l o wh => raw_unlock_file f l o wh
  | RmClose => raw_close f
  end.
(** The stream after the call. *)
Definition after_call (f : rawio) (m : rmethod) : rawio := match m with RmClose => set_closed f | _ => f end.

(** The exceptions raised, in order, by a sequence of calls.  A call that never returns is the last. *)
Fixpoint raw_raised (f : rawio) (ms : list rmethod) (w : world) : list exn :=
  match ms with
  | [] => []
  | m :: r => match rcall f m w with
              | (Ok _, w') => raw_raised (after_call f m) r w'
              | (Err EHang, _) => [EHang]
              | (Err e, w') => e :: raw_raised (after_call f m) r w'
              end
  end.
Fixpoint raised (k : bkind) (ms : list bmethod) (b : bstate) : list exn :=
  match ms with
  | [] => []
  | m :: r => match call k m b with
              | (Ok _, b') => raised k r b'
              | (Err EHang, _) => [EHang]
              | (Err e, b') => e :: raised k r b'
              end
  end.

(** A BufferedWriter has no peek (calling it is an AttributeError). *)
Definition has_method (k : bkind) (m : bmethod) : Prop := ~ (k = BWriter /\ exists n, m = MPeek n).

(** Right arguments for a call that does not lock; readinto() and close() apart. *)
Definition right_call (m : bmethod) : Prop :=
  match m with
  | MRead (Some n) => -1 <= n
  | MSeek _ wh => 0 <= wh <= 2
  | MReadinto _ _ | MLock _ _ _ _ _ | MUnlock _ _ _ | MClose => False
  | _ => True
  end.

(** File positions are not negative: lseek(2) refuses it. *)
Definition positions (w : world) : Prop := forall fd o, w_fds w fd = Some o -> 0 <= o_pos o.

(** Neither given nor got from open(2): descriptor 0. *)
Definition no_zero (a : openargs) (w : world) : Prop :=
  a_name a <> NInt 0 /\ a_fileno a <> Some 0 /\ a_handle a <> Some 0 /\ a_opener a <> Some 0 /\ ~ In 0 (w_newfd w).

(** The class put around the raw stream. *)
Definition buffer_kind (l : layer) : option bkind :=
  match l with LRaw => None | LReader => Some BReader | LWriter => Some BWriter | LRandom => Some BRandom end.
