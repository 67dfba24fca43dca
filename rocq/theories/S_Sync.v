(** Specification vocabulary for durability. *)
From Coq Require Import ZArith List Bool.
From Verif Require Import M_Base M_Modes M_Registry M_Kernel M_World.
Import ListNotations.
Open Scope Z_scope.

(** The machine stops and starts again: the files whose content was on the disk have it, the
    others have any content. *)
Definition crash (w w' : world) : Prop :=
  forall u i, w_inodes w u = Some i ->
    exists i', w_inodes w' u = Some i' /\ (n_dirty i = false -> n_data i' = n_data i).

(** The file [u] has content [c] and will have it after a crash, as long as it is not written again. *)
Definition durable (w : world) (u : uid) (c : list Z) : Prop :=
  forall w1 w2, w_inodes w1 u = w_inodes w u -> crash w1 w2 ->
    exists i, w_inodes w2 u = Some i /\ n_data i = c.

(** One of the calls fcntl(F_FULLFSYNC), fdatasync, fsync was made on descriptor [fd] when
    file [u] had content [c], it succeeded, and nothing happened after it. *)
Definition flushed_to_disk (fd : Z) (u : uid) (c : list Z) (w' : world) : Prop :=
  exists w1 i, w_inodes w1 u = Some i /\ n_data i = c /\ sys_flush_to_disk fd w1 = (Ok tt, w').
