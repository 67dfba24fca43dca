(** Disciplines of use of the lock system, and vocabulary of its properties. *)
From Coq Require Import ZArith List Bool.
From Verif Require Import M_Base M_Registry M_Kernel M_LockSys S_Locks.
Import ListNotations.
Open Scope Z_scope.

(** Locks recorded by process [p] for file [u] (a registry inherited by fork
    counts as empty). *)
Definition recorded (p : Z) (P : proc) (u : uid) : list lockrec :=
  match r_map (check_forking p (p_reg P)) u with Some e => e_locks e | None => [] end.

(** Discipline 1: no process asks, through one stream, for a shared lock that
    overlaps a shared lock held through another stream of the same process. *)
Definition no_shared_overlap (s : sys) (a : action) : bool :=
  match a with
  | ARegister p t | AWake p t =>
      match s_procs s p with
      | Some P =>
          match nth_error (p_thr P) t with
          | Some (PLockReg q) | Some (PLockWait q _) =>
              negb (existsb (fun lk => negb (lk_handle lk =? q_fd q) && lk_shared lk && q_shared q
                                       && areas_overlap (lk_start lk) (lk_end lk) (q_off q) (q_end q))
                            (recorded p P (q_uid q)))
          | _ => true
          end
      | None => true
      end
  | _ => true
  end.

(** Discipline 2: streams are closed only once they hold no lock. *)
Definition unlock_before_close (s : sys) (a : action) : bool :=
  match a with
  | AClose p t fd =>
      match s_procs s p with
      | Some P =>
          match p_streams P fd with
          | Some st => negb (existsb (fun lk => lk_handle lk =? fd) (recorded p P (st_uid st)))
          | None => true
          end
      | None => true
      end
  | _ => true
  end.

(** Discipline 3: every stream owns its descriptor (closefd=True). *)
Definition owning_streams (s : sys) (a : action) : bool :=
  match a with AWrap _ _ closefd => closefd | _ => true end.

Definition both (f g : sys -> action -> bool) (s : sys) (a : action) : bool := f s a && g s a.

(** Byte [b] of file [u] is held, at kernel level, by process [p] with kind [sh]. *)
Definition kernel_lock_on (s : sys) (p : Z) (u : uid) (sh : bool) (b : Z) : Prop :=
  exists x, In x (s_kern s) /\ k_pid x = p /\ k_ino x = u /\ k_shared x = sh /\ in_range (k_lo x) (k_hi x) b.

(** Two granted locks share a byte of the same file. *)
Definition holds_overlap (a b : hold) : Prop :=
  h_uid a = h_uid b /\
  share_byte (lk_start (h_lock a)) (lk_end (h_lock a)) (lk_start (h_lock b)) (lk_end (h_lock b)).

(** No thread of the process is inside unlock_file()/close(). *)
Definition no_critical_section (P : proc) : Prop := forall t g, nth_error (p_thr P) t <> Some (PProg g).

(** The process whose state an action changes. *)
Definition acts_on (a : action) : Z :=
  match a with
  | ABoot p | ASpawn p | AExit p | AOpen p _ _ | AExtOpen p _ _ | AWrap p _ _
  | ALock p _ _ _ _ _ _ | ARegister p _ | AWake p _ | ARetry p _ | AGiveUp p _ | AKern p _
  | AKernFail p _ | AUnregister p _ | AUnlock p _ _ _ _ | AClose p _ _ | AMicro p _ => p
  | AFork _ c => c
  end.

(** The thread is blocked in the registry on file [u]. *)
Definition waits_on (u : uid) (c : pc) : bool :=
  match c with PLockWait q _ => uid_eqb (q_uid q) u | _ => false end.
