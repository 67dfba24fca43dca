(** Vocabulary for the properties of lock_file on the sequential world,
    independent of the code: lock tables, who is in the way, what changed. *)
From Coq Require Import ZArith List Bool.
From Verif Require Import M_Base M_Registry M_Kernel M_World M_Raw S_Locks.
Import ListNotations.
Open Scope Z_scope.

(** The registry of the process; one inherited by fork counts as empty. *)
Definition registry_of (w : world) : registry := check_forking (w_pid w) (w_reg w).
(** Locks, pending descriptors and waiters recorded for file [u]. *)
Definition table (w : world) (u : uid) : list lockrec :=
  match r_map (registry_of w) u with Some e => e_locks e | None => [] end.
Definition pending (w : world) (u : uid) : list Z :=
  match r_map (registry_of w) u with Some e => e_data e | None => [] end.
Definition waiters (w : world) (u : uid) : Z :=
  match r_map (registry_of w) u with Some e => e_waiting e | None => 0 end.
(** The locks recorded for [u] through descriptor [h]. *)
Definition mine (w : world) (u : uid) (h : Z) : list lockrec :=
  filter (fun lk => lk_handle lk =? h) (table w u).
(** The kernel locks of the process. *)
Definition own_kernel (w : world) : klocks := filter (fun s => k_pid s =? w_pid w) (w_kern w).

(** Another stream of the process has recorded a lock that forbids locking
    [length] bytes from [off] through [h]. *)
Definition table_busy (w : world) (u : uid) (h off : Z) (length : option Z) (shared : bool) : Prop :=
  exists lk b, In lk (table w u) /\ lk_handle lk <> h /\ ~ (lk_shared lk = true /\ shared = true)
               /\ in_range (lk_start lk) (lk_end lk) b /\ covers off length b.
(** Another process holds a kernel lock that forbids it. *)
Definition kernel_busy (w : world) (u : uid) (off : Z) (length : option Z) (shared : bool) : Prop :=
  exists s b, In s (w_kern w) /\ k_pid s <> w_pid w /\ k_ino s = u
              /\ ~ (k_shared s = true /\ shared = true)
              /\ in_range (k_lo s) (k_hi s) b /\ covers off length b.
Definition busy (w : world) (u : uid) (h off : Z) (length : option Z) (shared : bool) : Prop :=
  table_busy w u h off length shared \/ kernel_busy w u off length shared.

(** The stream [h] itself already holds a lock on a byte of the area. *)
Definition own_overlap (w : world) (u : uid) (h off : Z) (length : option Z) : Prop :=
  exists lk b, In lk (table w u) /\ lk_handle lk = h
               /\ in_range (lk_start lk) (lk_end lk) b /\ covers off length b.

(** The process holds the kernel lock on byte [b] of [u]. *)
Definition process_holds (w : world) (u : uid) (shared : bool) (b : Z) : Prop :=
  exists s, In s (w_kern w) /\ k_pid s = w_pid w /\ k_ino s = u /\ k_shared s = shared
            /\ in_range (k_lo s) (k_hi s) b.

(** Others only move the clock and change file contents. *)
Definition quiet (ev : envev) : Prop := ev_kern ev = None /\ ev_locks ev = None.

(** Nothing of the process changed: its directory, descriptors, its registry
    (for file [u]: the records of [h], pending descriptors, waiters), its kernel
    locks.  What others hold may have changed. *)
Record no_trace (u : uid) (h : Z) (w w' : world) : Prop := mkNT {
  nt_names : w_names w' = w_names w;
  nt_fds : forall fd, w_fds w' fd = w_fds w fd;
  nt_pid : w_pid w' = w_pid w;
  nt_mine : mine w' u h = mine w u h;
  nt_pending : pending w' u = pending w u;
  nt_waiters : waiters w' u = waiters w u;
  nt_other : forall v, v <> u -> r_map (registry_of w') v = r_map (registry_of w) v;
  nt_kernel : own_kernel w' = own_kernel w }.

(** The stream can ask the kernel for a [shared] / exclusive lock: its descriptor
    is open with the access right needed, and no system call fails. *)
Record lockable (f : rawio) (w : world) (shared : bool) : Prop := mkLkb {
  lb_fd : exists o, w_fds w (fd_of f) = Some o /\ o_uid o = uid_of f
                    /\ (if shared then o_rd o else o_wr o) = true;
  lb_ino : w_inodes w (uid_of f) <> None;
  lb_io : forall e, ~ In (IoErr e) (w_io w) }.

(** An integer argument that must not be negative, and is wrong. *)
Definition wrong_nonneg (p : parg) : Prop := p = PBad \/ exists z, p = PInt z /\ z < 0.

(** The absolute offset meant by (offset, whence), at the time of the call. *)
Definition resolves (f : rawio) (w : world) (offset : parg) (whence off : Z) : Prop :=
  let d := match offset with PInt z => z | _ => 0 end in
  (whence = 0 /\ off = d)
  \/ exists o i, w_fds w (fd_of f) = Some o /\ w_inodes w (o_uid o) = Some i
       /\ ((whence = 1 /\ off = o_pos o + d)
           \/ (whence = 2 /\ off = Z.of_nat (length (n_data i)) + d)).

(** Between [w] and [w'] stream [f] obtained a lock on [length] bytes from [off]:
    one record was added, the kernel lock is held on these bytes, no other
    process is in the way, and nothing else of the process changed. *)
Record obtained (f : rawio) (w w' : world) (off : Z) (length : option Z) (shared : bool) : Prop := mkObt {
  ob_names : w_names w' = w_names w;
  ob_fds : forall fd, w_fds w' fd = w_fds w fd;
  ob_pid : w_pid w' = w_pid w;
  ob_mine : exists lk, mine w' (uid_of f) (fd_of f) = mine w (uid_of f) (fd_of f) ++ [lk]
      /\ lk_handle lk = fd_of f /\ lk_shared lk = shared
      /\ (forall b, in_range (lk_start lk) (lk_end lk) b <-> covers off length b);
  ob_pending : pending w' (uid_of f) = pending w (uid_of f);
  ob_waiters : waiters w' (uid_of f) = waiters w (uid_of f);
  ob_other : forall v, v <> uid_of f -> r_map (registry_of w') v = r_map (registry_of w) v;
  ob_kernel : forall b, covers off length b -> process_holds w' (uid_of f) shared b;
  ob_kernel_other : forall v sh b, ~ (v = uid_of f /\ covers off length b) ->
                    (process_holds w' v sh b <-> process_holds w v sh b);
  ob_free : ~ kernel_busy w' (uid_of f) off length shared;
  ob_inodes : forall v, v <> uid_of f -> w_inodes w' v = w_inodes w v }.
