(** Vocabulary of C75-C77: calls made by threads on one buffered stream, and serial execution. *)
From Coq Require Import ZArith List Bool Permutation.
From Verif Require Import M_Base M_Modes M_Registry M_Kernel M_World M_Raw M_Buffered M_Threads S_Bytes S_Raw S_Buffered
  P_BufRun.
Import ListNotations.
Open Scope Z_scope.

Inductive tcall : Type := TOp (op : bop) | TReadline (size : Z) | TClose.

(** A call with nothing in between: M_Buffered. *)
Definition run_tcall (k : bkind) (c : tcall) (b : bstate) : rout * bstate :=
  match c with
  | TOp op => run_bop k op b
  | TReadline n => blift OBytes (b_readline k n b)
  | TClose => blift (fun _ => OUnit) (b_close k b)
  end.

(** The same call in steps: M_Threads. *)
Definition plift {A} (f : A -> rout) (p : prog (res A)) : prog rout :=
  pseq p (fun r => PRet (match r with Ok a => f a | Err e => OErr e end)).
Definition prog_of (k : bkind) (c : tcall) : prog rout :=
  let obytes (d : option (list Z)) := match d with Some d => OBytes d | None => ONone end in
  match c with
  | TOp (BoRead n) => plift obytes (p_read k n)
  | TOp (BoRead1 n) => plift obytes (p_read1 k n)
  | TOp (BoPeek n) => plift OBytes (p_peek k n)
  | TOp (BoWrite d) => plift OInt (p_write k d)
  | TOp (BoSeek off wh) => plift OInt (p_seek k off wh)
  | TOp BoTell => plift OInt (p_tell k)
  | TOp BoSize => plift OInt (p_size k)
  | TOp BoFlush => plift (fun _ => OUnit) (p_flush k)
  | TOp (BoTruncate s) => plift OInt (p_truncate k s)
  | TReadline n => plift OBytes (p_readline k n)
  | TClose => plift (fun _ => OUnit) (p_close k)
  end.

(** The calls of [log], made one after the other, give the results they have in [log]. *)
Inductive replays {O R} (sem : O -> bstate -> R * bstate) : list (nat * O * R) -> bstate -> bstate -> Prop :=
| RP_nil : forall b, replays sem [] b b
| RP_cons : forall t o r l b b1 b2, sem o b = (r, b1) -> replays sem l b1 b2 -> replays sem ((t, o, r) :: l) b b2.

(** The calls that thread [t] made, in its order. *)
Definition calls_of {O R} (t : nat) (log : list (nat * O * R)) : list O :=
  map (fun x => snd (fst x)) (filter (fun x => Nat.eqb (fst (fst x)) t) log).

Definition idle {O R} (x : thread O R) : Prop := t_now x = None.
Definition finished {O R} (x : thread O R) : Prop := t_now x = None /\ t_todo x = [].
