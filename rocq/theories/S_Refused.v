(** Vocabulary of C78 and C79: lock requests that no event can make succeed. *)
From Coq Require Import ZArith List Bool.
From Verif Require Import M_Base M_Registry M_Kernel M_World M_Raw S_Locks S_LockFile.
Open Scope Z_scope.

(** fcntl refuses the request whatever the other locks are: the range begins before the file, or the
    descriptor is not open with the access that this kind of lock needs. *)
Definition hopeless (f : rawio) (w : world) (shared : bool) (off : Z) : Prop :=
  off < 0 \/ forall o, w_fds w (fd_of f) = Some o -> (if shared then o_rd o else o_wr o) = false.

(** A call that passes the checks of lock_file and is then refused by fcntl for good. *)
Record hopeless_call (f : rawio) (w : world) (length offset : parg) (whence : Z) (shared : bool) (off : Z) : Prop := mkHC {
  hc_open : f_closed f = false;
  hc_seekable : f_seekable f = true;
  hc_length : ~ wrong_nonneg length;
  hc_offset : offset <> PBad;
  hc_whence : whence = 0 \/ whence = 1 \/ whence = 2;
  hc_share : (if shared then f_readable f else f_writable f) = true;
  hc_resolves : resolves f w offset whence off;
  hc_regular : forall o i, w_fds w (fd_of f) = Some o -> w_inodes w (o_uid o) = Some i ->
               n_kind i = KReg /\ 0 <= o_pos o;
  hc_fresh : ~ own_overlap w (uid_of f) (fd_of f) off (parg_opt length);
  hc_hopeless : hopeless f w shared off }.
