(** Vocabulary of C108: a single thread that nobody else can help. *)
From Coq Require Import ZArith List Bool.
From Verif Require Import M_Base M_Modes M_Registry M_Kernel M_World M_Raw M_Buffered M_Threads M_LeftAlone S_Bytes S_Raw
  S_Buffered P_BufRun S_Threads.
Import ListNotations.
Open Scope Z_scope.

Definition starts (w : wrapper) (k : bkind) (c : tcall) : prog rout := through w (prog_of k c).

(** The calls of [script] all return; [replays]: with the results and the stream that the same calls, made one after the
    other on a stream in the state [b], give. *)
Definition completes (w : wrapper) (k : bkind) (script : list tcall) (q : pool tcall rout) : Prop :=
  exists n q', prun (starts w k) (repeat O n) q = Some q' /\ Forall finished (q_thr q')
    /\ calls_of O (q_log q') = script /\ replays (run_tcall k) (q_log q') (q_st q) (q_st q').
(** It comes to wait for a lock that nobody will give back. *)
Definition hangs (w : wrapper) (k : bkind) (q : pool tcall rout) : Prop :=
  exists n q', prun (starts w k) (repeat O n) q = Some q' /\ pstep (starts w k) O q' = None
    /\ ~ Forall finished (q_thr q').

(** Which methods wait for the lock of a reader or of a writer: not those that fail on their arguments or on a closed
    stream beforehand, nor tell(); a reader's flush(), size() and close() do not, all those of a writer do. *)
Definition waits (k : bkind) (c : tcall) (b : bstate) : bool :=
  let open := negb (f_closed (b_raw b)) in
  match k, c with
  | BReader, TOp (BoRead (Some n)) => -1 <=? n
  | BReader, TOp (BoRead None) => true
  | BReader, TOp (BoRead1 n) => open && negb ((if n <? 0 then b_size b else n) =? 0)
  | BReader, TOp (BoPeek _) => open
  | BReader, TOp (BoSeek _ wh) => open && valid_whence wh
  | BReader, TReadline n => open && negb (n =? 0)
  | BWriter, TOp (BoSeek _ wh) => valid_whence wh
  | BWriter, TOp (BoWrite _) => true
  | BWriter, TOp BoFlush => true
  | BWriter, TOp BoSize => true
  | BWriter, TOp (BoTruncate _) => true
  | BWriter, TClose => true
  | _, _ => false
  end.
Definition lock_held (k : bkind) (ls : locks) : bool := match k with BReader => l_read ls | _ => l_write ls end.

(** Expected: a child forked at any moment can use the stream; so can a handler. *)
Definition children_go_on (w : wrapper) (k : bkind) : Prop :=
  forall b scripts sched q script, prun (starts w k) sched (new_pool b scripts) = Some q ->
  completes w k script (fork_child w script q).
Definition handlers_go_on (w : wrapper) (k : bkind) : Prop :=
  forall b c n q script, prun (starts w k) (repeat O n) (new_pool b [[c]]) = Some q ->
  completes w k script (in_handler script q).
