(** Vocabulary for the properties of opening, independent of the code. *)
From Coq Require Import ZArith List Bool Ascii.
From Verif Require Import M_Base M_Modes M_Registry M_Kernel M_World M_Raw M_Open S_LockFile.
Import ListNotations.
Open Scope Z_scope.

(** Opening [p] by its path. *)
Definition by_path (rk : raw_kwargs) (p : list ascii) : Prop :=
  rk_path rk = NPath p /\ rk_fileno rk = None /\ rk_handle rk = None.
Definition asks_path (a : openargs) (p : list ascii) : Prop :=
  a_name a = NPath p /\ a_fileno a = None /\ a_handle a = None /\ a_opener a = None.

(** Descriptor [d] is given to rsopen, in one of the four ways (an opener is what
    decides when there is one). *)
Definition given (a : openargs) (d : Z) : Prop :=
  match a_opener a with
  | Some fd => fd = d
  | None => a_fileno a = Some d \/ a_handle a = Some d \/ a_name a = NInt d
  end.

(** File [i] became [i'] without the process: untouched, or written by others
    during one of the waits of [env]. *)
Definition others_only (env : list envev) (i i' : inode) : Prop :=
  i' = i \/ exists ev d, In ev env /\ ev_data ev = Some d /\ i' = mkIno (n_kind i) d true.

(** No file of [w] was changed by the process. *)
Definition files_untouched (w w' : world) : Prop :=
  forall v i, w_inodes w v = Some i ->
    exists i', w_inodes w' v = Some i' /\ others_only (w_env w) i i'.

(** The registry agrees with the descriptor table: pending descriptors are open,
    once each, on the file they are pending for; locks are recorded for open
    descriptors only. *)
Record sane (w : world) : Prop := mkSane {
  sn_nodup : forall v, NoDup (pending w v);
  sn_open : forall v d, In d (pending w v) -> exists o, w_fds w d = Some o /\ o_uid o = v;
  sn_locks : forall v lk, In lk (table w v) -> w_fds w (lk_handle lk) <> None }.

(** Nothing remains of what was opened between [w] and [w']: a descriptor that was
    not open is closed, or (its closing would drop the locks that other streams of the
    process hold on the same file) recorded for closing; no lock is recorded for
    the descriptor that was to be opened; the process holds no lock it did not
    hold before. *)
Record released (w w' : world) : Prop := mkRel {
  rl_fds : forall d, w_fds w d = None ->
      w_fds w' d = None
      \/ exists v lk, In d (pending w' v) /\ In lk (table w' v) /\ lk_handle lk <> d;
  rl_locks : forall v d, hd_error (w_newfd w) = Some d -> w_fds w d = None -> mine w' v d = [];
  rl_kernel : forall v sh b, process_holds w' v sh b -> process_holds w v sh b }.
