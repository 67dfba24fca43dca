(** Vocabulary for lock calls interrupted by signal handlers. *)
From Coq Require Import ZArith List Bool.
From Verif Require Import M_Base M_Modes M_Registry M_Kernel M_World M_Raw M_Waiting M_Interrupt S_Locks S_LockFile.
Import ListNotations.
Open Scope Z_scope.

(** Handlers run only while the call waits. *)
Definition in_waits (h : happening) : Prop := match h with Wake _ c => c = NoCut | Interrupt _ => True end.
(** The call waits for another stream of the same process, in the registry. *)
Definition in_registry (ph : phase) : Prop := ph = PhRegWait.
(** Everything is as before but the number of waiters on [u], which is higher by one. *)
Record lost_waiter (u : uid) (h : Z) (w w' : world) : Prop := mkLW {
  lw_names : w_names w' = w_names w;
  lw_fds : forall fd, w_fds w' fd = w_fds w fd;
  lw_pid : w_pid w' = w_pid w;
  lw_mine : mine w' u h = mine w u h;
  lw_pending : pending w' u = pending w u;
  lw_waiters : waiters w' u = waiters w u + 1;
  lw_other : forall v, v <> u -> r_map (registry_of w') v = r_map (registry_of w) v;
  lw_kernel : own_kernel w' = own_kernel w }.
