(** Vocabulary of C110: close() interrupted by a signal handler that raises. *)
From Coq Require Import ZArith List Bool.
From Verif Require Import M_Base M_Registry M_Kernel M_World M_Raw S_Locks S_LockFile.
Import ListNotations.
Open Scope Z_scope.

(** A stream of the process on the file [u]: it is open, and its number is that of a descriptor of this file. *)
Record streaming (f : rawio) (w : world) (u : uid) (fd : Z) : Prop := mkStr {
  sg_open : f_closed f = false;
  sg_fd : f_fd f = Some fd;
  sg_uid : f_uid f = Some u;
  sg_file : exists o, w_fds w fd = Some o /\ o_uid o = u }.
(** Byte [b] is locked by one of the records. *)
Definition covered (l : list lockrec) (b : Z) : Prop := exists lk, In lk l /\ in_range (lk_start lk) (lk_end lk) b.
(** The records of other streams of the process on the file. *)
Definition of_others (w : world) (u : uid) (fd : Z) : list lockrec := filter (fun lk => negb (lk_handle lk =? fd)) (table w u).
(** A process holds a lock on byte [b] of the file [v]. *)
Definition someone_holds (w : world) (p : Z) (v : uid) (shared : bool) (b : Z) : Prop :=
  exists s, In s (w_kern w) /\ k_pid s = p /\ k_ino s = v /\ k_shared s = shared /\ in_range (k_lo s) (k_hi s) b.
(** Records as lock_file makes them. *)
Definition well_made (l : list lockrec) : Prop :=
  forall lk, In lk l -> 0 <= lk_start lk /\ match lk_end lk with Some e => lk_start lk < e | None => True end.
(** The descriptor is open, and nothing is left that would close it: it does not wait to be closed. *)
Definition abandoned (w : world) (u : uid) (fd : Z) : Prop := w_fds w fd <> None /\ ~ In fd (pending w u).
(** A stream of the process that owns its descriptor, other than 0; the descriptors that wait to be closed are open, on the same file. *)
Record owning (f : rawio) (w : world) (u : uid) (fd : Z) : Prop := mkOwning {
  og_stream : streaming f w u fd;
  og_nz : fd <> 0;
  og_closefd : f_closefd f = true;
  og_ino : w_inodes w u <> None;
  og_fresh : ~ In fd (pending w u);
  og_nodup : NoDup (pending w u);
  og_open : forall d, In d (pending w u) -> exists o, w_fds w d = Some o /\ o_uid o = u }.
(** No system call fails. *)
Definition faultless (w : world) : Prop := forall e, ~ In (IoErr e) (w_io w).
