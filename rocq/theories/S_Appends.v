(** Vocabulary of C87: threads at work on a stream, and other processes that append to its file
    between any two of their system calls. *)
From Coq Require Import ZArith List Bool.
From Verif Require Import M_Base M_Modes M_Registry M_Kernel M_World M_Raw M_Buffered M_Threads S_Bytes S_Raw S_Buffered
  S_Threads S_Demo.
Import ListNotations.
Open Scope Z_scope.

(** The descriptor [fd], if it is one of the file [u], is in append mode; [u] is a regular file. *)
Definition appends_to (u : uid) (fd : Z) (w : world) : Prop :=
  (forall o, w_fds w fd = Some o -> o_uid o = u -> o_app o = true)
  /\ (forall i, w_inodes w u = Some i -> n_kind i = KReg).

(** Another process puts [e] at the end of [u]. *)
Definition other_appends (u : uid) (e : list Z) (w : world) : world := upd_ino w u (mkIno KReg (content w u ++ e) true).

(** A step of thread [t]; or [e] is appended by another process. *)
Inductive estep : Type := EStep (t : nat) | EAppend (e : list Z).
Definition run_estep (u : uid) (k : bkind) (a : estep) (q : pool tcall rout) : option (pool tcall rout) :=
  match a with
  | EStep t => pstep (prog_of k) t q
  | EAppend e => Some (mkPool (q_locks q) (set_world (q_st q) (other_appends u e (b_w (q_st q)))) (q_thr q) (q_log q))
  end.
Fixpoint run_esteps (u : uid) (k : bkind) (acts : list estep) (q : pool tcall rout) : option (pool tcall rout) :=
  match acts with
  | [] => Some q
  | a :: r => match run_estep u k a q with None => None | Some q1 => run_esteps u k r q1 end
  end.
Definition no_truncate (c : tcall) : Prop := forall s, c <> TOp (BoTruncate s).
Definition file_of (u : uid) (q : pool tcall rout) : list Z := content (b_w (q_st q)) u.
