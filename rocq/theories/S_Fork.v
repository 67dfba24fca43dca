(** Vocabulary of C88: what processes do with a stream they have inherited. *)
From Coq Require Import ZArith List Bool.
From Verif Require Import M_Base M_Buffered S_Bytes S_Raw S_Buffered S_Sections.
Import ListNotations.
Open Scope Z_scope.

(** * One call after the other, by any process *)
Inductive fact : Type :=
| FCall (j : nat) (op : bop)    (* a call of process j *)
| FFork (j : nat)               (* process j forks *)
| FClose (j : nat).             (* process j closes the stream *)

(** What process [j] wrote. *)
Fixpoint records_of (j : nat) (acts : list fact) (outs : list rout) : list (list Z) :=
  match acts, outs with
  | FCall l (BoWrite d) :: acts, OInt _ :: outs => (if Nat.eqb l j then [d] else []) ++ records_of j acts outs
  | _ :: acts, _ :: outs => records_of j acts outs
  | _, _ => []
  end.
Fixpoint just_writes (acts : list fact) : Prop :=
  match acts with
  | [] => True
  | FCall _ (BoWrite _) :: r | FCall _ BoFlush :: r | FFork _ :: r | FClose _ :: r => just_writes r
  | _ => False
  end.
(** A process forks only when it has called flush() since its last write(). *)
Fixpoint flushed_forks (clean : nat -> bool) (acts : list fact) : Prop :=
  match acts with
  | [] => True
  | FCall j (BoWrite _) :: r => flushed_forks (set_at clean j false) r
  | FCall j BoFlush :: r | FClose j :: r => flushed_forks (set_at clean j true) r
  | FFork j :: r => clean j = true /\ flushed_forks clean r
  | _ :: r => flushed_forks clean r
  end.
(** The calls, whoever makes them. *)
Fixpoint calls_of (acts : list fact) : list bop :=
  match acts with
  | [] => []
  | FCall _ op :: r => op :: calls_of r
  | _ :: r => calls_of r
  end.

(** * Several calls under the mutex *)
Inductive fturn : Type :=
| Turn (j : nat) (ops : list bop) (last : bop)   (* with f.mutex: ... in process j *)
| TFork (j : nat).
(** The last call leaves nothing in the buffers. *)
Definition hands_over (k : bkind) (t : fturn) : Prop :=
  match t with
  | Turn _ _ last => last = BoSeek 0 1 \/ (k = BWriter /\ last = BoFlush)
  | TFork _ => True
  end.
Definition turn_calls (t : fturn) : list bop :=
  match t with Turn _ ops last => ops ++ [last] | TFork _ => [] end.
(** The processes that take a turn exist: [n] of them now. *)
Fixpoint exist (n : nat) (ts : list fturn) : Prop :=
  match ts with
  | [] => True
  | Turn j _ _ :: r => (j < n)%nat /\ exist n r
  | TFork j :: r => (j < n)%nat /\ exist (S n) r
  end.
