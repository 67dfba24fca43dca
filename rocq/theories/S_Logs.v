(** Vocabulary of C85: what a file contains to which streams in append mode were written. *)
From Coq Require Import ZArith List Bool.
From Verif Require Import M_Base M_Buffered S_Bytes S_Raw S_Buffered S_Append S_Sections S_Waiting.
Import ListNotations.
Open Scope Z_scope.

(** The bytes that write() took go to the end, in the order of the calls; what other processes
    put into the file is there. *)
Definition written_to (c : list Z) (a : wact) (out : gout) : list Z :=
  match a, out with
  | WAct (GOp _ (BoWrite d)), GRes (OInt _) => c ++ d
  | WAct (GData d), _ => d
  | _, _ => c
  end.
(** What stream [j] wrote. *)
Fixpoint records (j : nat) (acts : list wact) (outs : list gout) : list Z :=
  match acts, outs with
  | WAct (GOp l (BoWrite d)) :: acts, GRes (OInt _) :: outs => (if Nat.eqb l j then d else []) ++ records j acts outs
  | _ :: acts, _ :: outs => records j acts outs
  | _, _ => []
  end.
Definition never_truncates (acts : list wact) : Prop := forall j s, ~ In (WAct (GOp j (BoTruncate s))) acts.

(** * Without locks (C86) *)

(** Records of each stream that are not in the file yet. *)
Definition lstate : Type := list Z * (nat -> list (list Z)).
(** A write keeps its record back, or puts all records of the stream into the file; flush()
    does the latter. *)
Inductive lstep : lstate -> gact -> gout -> lstate -> Prop :=
| LS_keep : forall c pend j d, lstep (c, pend) (GOp j (BoWrite d)) (GRes (OInt (len d))) (c, set_at pend j (pend j ++ [d]))
| LS_out : forall c pend j d, lstep (c, pend) (GOp j (BoWrite d)) (GRes (OInt (len d)))
    (c ++ concat (pend j ++ [d]), set_at pend j [])
| LS_flush : forall c pend j, lstep (c, pend) (GOp j BoFlush) (GRes OUnit) (c ++ concat (pend j), set_at pend j [])
| LS_other : forall c pend e, lstep (c, pend) (GData (c ++ e)) GSilent (c ++ e, pend).
Inductive lruns : lstate -> list gact -> list gout -> lstate -> Prop :=
| LR_nil : forall s, lruns s [] [] s
| LR_cons : forall s a out s1 acts outs s2, lstep s a out s1 -> lruns s1 acts outs s2 -> lruns s (a :: acts) (out :: outs) s2.
