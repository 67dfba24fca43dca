(** Specification vocabulary: when nothing stands in the way of a call on a whole file, and what a
    call that cleans up leaves (C90). *)
From Coq Require Import ZArith List Bool Ascii.
From Verif Require Import M_Base M_Modes M_Registry M_Kernel M_World S_LockFile.
Import ListNotations.
Open Scope Z_scope.

(** A file that opening [p] may give: the one named or, if there is none, one that does not exist yet. *)
Definition target (w : world) (p : list ascii) (u : uid) : Prop :=
  w_names w p = Some u \/ (w_names w p = None /\ w_inodes w u = None).

(** Nobody has a lock on [u]: neither the streams of this process, nor other processes. *)
Definition unlocked (w : world) (u : uid) : Prop :=
  table w u = [] /\ pending w u = [] /\ forall s, In s (w_kern w) -> k_ino s = u -> k_pid s = w_pid w.

(** No system call fails (they may do only part of the work), the kernel has a descriptor and an
    inode to give, [p] is a regular file or nothing, as the creation flags want it, and nobody has a lock on it.
    Descriptor 0 is excluded: the code takes it for no descriptor. *)
Record in_order (w : world) (p : list ascii) (must_create must_exist : bool) : Prop := mkOrder {
  or_calls : forall e, ~ In (IoErr e) (w_io w);
  or_number : exists fd fds, w_newfd w = fd :: fds /\ w_fds w fd = None /\ fd <> 0;
  or_inode : exists u us, w_newino w = u :: us /\ w_inodes w u = None;
  or_path : p <> [] /\ ~ In "000"%char p;
  or_file : forall u, w_names w p = Some u -> exists i, w_inodes w u = Some i /\ n_kind i = KReg;
  or_create : must_create = true -> w_names w p = None;
  or_exist : must_exist = true -> w_names w p <> None;
  or_free : forall u, target w p u -> unlocked w u }.

(** From [w] to [w'] the process kept its descriptors and the records of its locks, and no file but [p] changed;
    nothing is left of the locks taken on [p], and no other kernel lock was taken. *)
Record left_clean (w w' : world) (p : list ascii) : Prop := mkClean {
  cl_pid : w_pid w' = w_pid w;
  cl_fds : forall d, w_fds w' d = w_fds w d;
  cl_names : forall q, q <> p -> w_names w' q = w_names w q;
  cl_files : forall v, w_names w' p <> Some v -> w_inodes w' v = w_inodes w v;
  cl_tables : forall v, table w' v = table w v /\ pending w' v = pending w v;
  cl_mine : forall u sh b, w_names w' p = Some u -> ~ process_holds w' u sh b;
  cl_locks : forall u sh b, process_holds w' u sh b -> process_holds w u sh b }.
