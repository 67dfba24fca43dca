(** Specification vocabulary: a queue of bytes, and the calls at both ends of a pipe (C94). *)
From Coq Require Import ZArith List Bool.
From Verif Require Import M_Base M_World S_Bytes.
Import ListNotations.
Open Scope Z_scope.

Inductive pcall : Type :=
| PcWrite (d : list Z) | PcFlush                                   (* of the writer *)
| PcRead (n : option Z) | PcRead1 (n : Z) | PcPeek (n : Z)         (* of the reader *)
| PcReadline (size : Z) | PcReadinto (n : Z) (one : bool).
(** [PoNone]: None, there is nothing to read now. *)
Inductive pout : Type := PoCount (n : Z) | PoDone | PoBytes (d : list Z) | PoNone | PoErr (e : exn).

(** One line, or a part of it: no newline but at the end. *)
Definition line_part (d : list Z) : Prop := ~ In 10 (removelast d).

(** A queue: what was accepted and not delivered yet. *)
Inductive qstep : list Z -> pcall -> pout -> list Z -> Prop :=
(* write: everything is taken; as many bytes as the error says; or, if the system fails, all or nothing *)
| Q_write q d : qstep q (PcWrite d) (PoCount (len d)) (q ++ d)
| Q_write_part q d n : 0 <= n <= len d -> qstep q (PcWrite d) (PoErr (EBlocking n)) (q ++ firstn (Z.to_nat n) d)
| Q_write_all q d n : qstep q (PcWrite d) (PoErr (EOS n)) (q ++ d)
| Q_write_none q d e : (exists n, e = EOS n) \/ e = EBlocking 0 -> qstep q (PcWrite d) (PoErr e) q
| Q_flush q o : o = PoDone \/ (exists n, o = PoErr (EOS n)) \/ o = PoErr (EBlocking 0) -> qstep q PcFlush o q
(* the reading methods take from the front *)
| Q_read q n d q' : q = d ++ q' -> (forall k, n = Some k -> 0 <= k -> len d <= k) -> qstep q (PcRead n) (PoBytes d) q'
| Q_read_none q n : qstep q (PcRead n) PoNone q
| Q_read_bad q n : n < -1 -> qstep q (PcRead (Some n)) (PoErr EValue) q
| Q_read1 q n d q' : q = d ++ q' -> (0 <= n -> len d <= n) -> qstep q (PcRead1 n) (PoBytes d) q'
| Q_peek q n d q' : q = d ++ q' -> qstep q (PcPeek n) (PoBytes d) q
(* (twice the limit, because of C52) *)
| Q_readline q n d q' : q = d ++ q' -> (0 <= n -> len d <= 2 * n) -> line_part d -> qstep q (PcReadline n) (PoBytes d) q'
| Q_readinto q n one d q' : q = d ++ q' -> (0 <= n -> len d <= n) -> qstep q (PcReadinto n one) (PoBytes d) q'
(* read1 and peek make one system call: if it fails nothing is lost *)
| Q_fail q c n : (exists k, c = PcRead1 k) \/ (exists k, c = PcPeek k) -> qstep q c (PoErr (EOS n)) q.

Fixpoint qruns (q : list Z) (cs : list pcall) (os : list pout) (q' : list Z) : Prop :=
  match cs, os with
  | [], [] => q' = q
  | c :: cs, o :: os => exists q1, qstep q c o q1 /\ qruns q1 cs os q'
  | _, _ => False
  end.

(** The bytes taken from the front by a call. *)
Definition delivered (c : pcall) (o : pout) : list Z :=
  match c, o with
  | PcPeek _, _ => []
  | _, PoBytes d => d
  | _, _ => []
  end.
(** read(), readline() and readinto() do not raise (a failing system call makes them lose bytes, C64). *)
Definition safe_call (c : pcall) (o : pout) : Prop :=
  match c, o with
  | PcRead (Some n), PoErr _ => n < -1
  | PcRead None, PoErr _ | PcReadline _, PoErr _ | PcReadinto _ _, PoErr _ => False
  | _, _ => True
  end.
