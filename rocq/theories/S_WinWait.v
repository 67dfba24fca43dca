(** Specification vocabulary for lock_file() with waiting on windows. *)
From Coq Require Import ZArith List Bool.
From Verif Require Import M_Base M_Registry M_World M_WinLocks S_WinLocks M_WinWait.
Import ListNotations.
Open Scope Z_scope.

(** The handle a call is made on. *)
Definition wlop_handle (op : wlop) : Z :=
  match op with
  | WLock h _ _ _ | WUnlock h _ _ | WClose h | OLock h _ _ _ | OUnlock h _ _ | OClose h => h
  end.
(** What others do while the caller waits: legal calls on other handles; time does not go back. *)
Definition others_ok (mine : Z -> bool) (h : Z) (ev : wev) : Prop :=
  0 <= we_dt ev /\ Forall (fun op => wlop_ok mine op /\ wlop_handle op <> h) (we_ops ev).
Definition elapsed (env : list wev) : Z := fold_right (fun ev n => we_dt ev + n) 0 env.
(** The calls of others during the events. *)
Definition acts (env : list wev) : list wlop := flat_map we_ops env.
(** The locks are the same: those of the system and those of the registry. *)
Definition same_locks (a b : wlsys) : Prop :=
  wk_locks a = wk_locks b
  /\ (forall h, match r_map (wk_reg a) (huid h) with None => [] | Some e => e_locks e end
              = match r_map (wk_reg b) (huid h) with None => [] | Some e => e_locks e end).
