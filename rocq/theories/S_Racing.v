(** Vocabulary of C104: threads that use a stream while some of them close it, and the rest of the process. *)
From Coq Require Import ZArith List Bool.
From Verif Require Import M_Base M_Registry M_Kernel M_World M_Raw M_Buffered M_Threads M_Racing S_Bytes S_Raw S_LockFile.
Import ListNotations.
Open Scope Z_scope.

Inductive rcall : Type :=
| RcRead (n : option Z) | RcWrite (d : list Z) | RcSeek (off wh : Z) | RcTell | RcTruncate (n : option Z) | RcFlush | RcSize | RcClose.
Definition rlift {A} (f : A -> rout) (p : prog (res A)) : prog rout :=
  pseq p (fun r => PRet (match r with Ok a => f a | Err e => OErr e end)).
(** A call on a stream without thread-safe wrapper; with it (S_Threads: [secured]). *)
Definition bare (k : bkind) (c : rcall) : prog rout :=
  match c with
  | RcRead n => rlift (fun d => match d with Some d => OBytes d | None => ONone end) (r_read k n)
  | RcWrite d => rlift OInt (r_write k d)
  | RcSeek off wh => rlift OInt (r_seek k off wh)
  | RcTell => rlift OInt (r_tell k)
  | RcTruncate n => rlift OInt (r_truncate k n)
  | RcFlush => rlift (fun _ => OUnit) (r_flush k)
  | RcSize => rlift OInt (r_size k)
  | RcClose => rlift (fun _ => OUnit) (r_close k)
  end.
(** A call on a raw stream (buffering=0, rsfileio_abstract.py:207-227, 335-454). *)
Definition unbuffered (c : rcall) : prog rout :=
  match c with
  | RcRead n => rlift (fun d => match d with Some d => OBytes d | None => ONone end) (raw_call (fun f => raw_read f n))
  | RcWrite d => rlift (fun n => match n with Some n => OInt n | None => ONone end) (raw_call (fun f => raw_write f d))
  | RcSeek off wh => rlift OInt (raw_call (fun f => raw_seek f off wh))
  | RcTell => rlift OInt (raw_call raw_tell)
  | RcTruncate n => rlift OInt (raw_call (fun f => raw_truncate f n))
  | RcFlush => rlift (fun _ => OUnit) (raw_call raw_flush)
  | RcSize => rlift OInt (raw_call raw_size)
  | RcClose => rlift (fun _ => OUnit) raw_closing
  end.
Definition wrapped (k : bkind) (c : rcall) : prog rout := secured (bare k c).

(** The rest of the process does anything (opens, closes, reads and writes other files), except that it leaves the descriptors of the file
    [u] alone, and does not add to those that wait to be closed. *)
Definition elsewhere (u : uid) (w w' : world) : Prop :=
  (forall d o, w_fds w d = Some o -> o_uid o = u -> exists o', w_fds w' d = Some o' /\ o_uid o' = u)
  /\ incl (pending w' u) (pending w u).
(** The threads make steps in any order, the rest of the process acts in between. *)
Inductive racing (start : rcall -> prog rout) (u : uid) : pool rcall rout -> pool rcall rout -> Prop :=
| RC_now : forall q, racing start u q q
| RC_step : forall q q1 q2 t, racing start u q q1 -> pstep start t q1 = Some q2 -> racing start u q q2
| RC_else : forall q q1 w, racing start u q q1 -> elsewhere u (b_w (q_st q1)) w ->
    racing start u q (mkPool (q_locks q1) (set_world (q_st q1) w) (q_thr q1) (q_log q1)).

(** Nothing happens to other files: their descriptors stay open, where they are, and their content is the same. *)
Definition spares (u : uid) (w w' : world) : Prop :=
  (forall d o, w_fds w d = Some o -> o_uid o <> u -> w_fds w' d = Some o)
  /\ forall v, v <> u -> w_inodes w' v = w_inodes w v.
(** Less: their descriptors stay open, perhaps elsewhere in the file, and the content of those that are not pipes is the same. *)
Definition keeps (u : uid) (w w' : world) : Prop :=
  (forall d o, w_fds w d = Some o -> o_uid o <> u -> exists o', w_fds w' d = Some o' /\ o_uid o' = o_uid o)
  /\ forall v i, v <> u -> w_inodes w v = Some i -> n_kind i <> KPipe -> exists j, w_inodes w' v = Some j /\ n_data j = n_data i /\ n_kind j = n_kind i.

(** A stream just opened on [u]. *)
Record opened_on (f : rawio) (w : world) (u : uid) : Prop := mkOpn {
  on_open : f_closed f = false;
  on_uid : f_uid f = Some u;
  on_fd : exists fd, f_fd f = Some fd /\ (exists o, w_fds w fd = Some o /\ o_uid o = u) /\ ~ In fd (pending w u);
  on_pend : forall d, In d (pending w u) -> exists o, w_fds w d = Some o /\ o_uid o = u }.
