(** Vocabulary of C82: the streams of C72 when lock calls may wait.  A call that waits is cut
    into turns; between two turns the other streams and processes do what they want. *)
From Coq Require Import ZArith List Bool.
From Verif Require Import M_Base M_Modes M_Registry M_Kernel M_World M_Raw M_Buffered S_Bytes S_Raw S_Locks S_Buffered S_Sections.
Import ListNotations.
Open Scope Z_scope.

Inductive wact : Type :=
| WAct (a : gact)          (* as before, but lock_file() may answer GSilent: the caller is put to sleep *)
| WTurn (j : nat)          (* the caller sleeping in lock_file() of stream [j] wakes up and tries again *)
| WTick (dt : Z).          (* time passes *)

(** * The abstract machine: that of C72; sleeping is nothing *)
Inductive wstep (kind : nat -> option bkind) (app : nat -> bool) : astate -> wact -> gout -> astate -> Prop :=
| WS_act : forall s a out s', sstep kind app s a out s' -> wstep kind app s (WAct a) out s'
| WS_asleep : forall s j t, wstep kind app s (WAct (GLock j t)) GSilent s
| WS_got : forall c ps held j,
    (forall l k, kind l = Some k -> held l = true -> k = BReader /\ kind j = Some BReader /\ l <> j) ->
    wstep kind app (c, ps, held) (WTurn j) GGot (c, ps, set_at held j true)
| WS_refused : forall s j e, wstep kind app s (WTurn j) (GError e) s
| WS_still : forall s j, wstep kind app s (WTurn j) GSilent s
| WS_tick : forall s dt, wstep kind app s (WTick dt) GSilent s.
Inductive wruns (kind : nat -> option bkind) (app : nat -> bool) : astate -> list wact -> list gout -> astate -> Prop :=
| WR_nil : forall s, wruns kind app s [] [] s
| WR_cons : forall s a out s1 acts outs s2,
    wstep kind app s a out s1 -> wruns kind app s1 acts outs s2 -> wruns kind app s (a :: acts) (out :: outs) s2.

(** * What is asked of the program *)

(** Who sleeps in lock_file(). *)
Definition asleep_after (asleep : nat -> bool) (a : wact) (out : gout) : nat -> bool :=
  match a, out with
  | WAct (GLock j _), GSilent => set_at asleep j true
  | WTurn j, GSilent => asleep
  | WTurn j, _ => set_at asleep j false
  | _, _ => asleep
  end.
Definition wheld_after (held : nat -> bool) (a : wact) (out : gout) : nat -> bool :=
  match a, out with
  | WAct a, _ => held_after held a out
  | WTurn j, GGot => set_at held j true
  | _, _ => held
  end.
Definition wclean_after (cl : nat -> bool) (a : wact) (out : gout) : nat -> bool :=
  match a, out with
  | WAct a, _ => clean_after cl a out
  | WTurn j, GGot => set_at cl j true
  | _, _ => cl
  end.
(** As in C72, except that lock calls may wait; a stream is not used while a lock call on it
    sleeps. *)
Definition wpermitted (kind : nat -> option bkind) (u : uid) (held cl asleep : nat -> bool) (a : wact) (out : gout) (w : world) : Prop :=
  match a with
  | WAct (GLock j _) => kind j <> None /\ asleep j = false
  | WAct (GOp j _ as a) | WAct (GUnlock j as a) => permitted kind u held cl a out w /\ asleep j = false
  | WAct a => permitted kind u held cl a out w
  | WTurn j => kind j <> None /\ asleep j = true
  | WTick _ => True
  end.
