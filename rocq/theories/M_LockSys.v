(** The multi-process, multi-thread locking system: processes x threads x rsfile
    streams running lock_file / unlock_file / close on unix, interleaved at the
    granularity of registry-mutex sections and system calls.  No proofs here.

    Modelled code: rsfileio_abstract.py:207-227 (close), 534-638 (lock_file),
    640-662 (unlock_file); rsfileio_unix.py:46-60 (purge), 144-153
    (_inner_close_streams), 274-303 (_inner_file_lock/_inner_file_unlock);
    rsfile_registries.py:173-282.

    Assumptions (also listed in DESIGN.md):
    - calls on one stream object are serialised (no two threads inside methods of
      the same stream at the same time); different streams are fully concurrent;
    - a descriptor is wrapped by at most one live rsfile stream at a time, and
      descriptors owned by rsfile are closed only by rsfile;
    - descriptor 0 is not used (see C29/C30 for what happens with it);
    - process ids are not reused while a stale copy of the registry refers to them. *)
From Coq Require Import ZArith List Bool.
From Verif Require Import M_Base M_Registry M_Kernel.
Import ListNotations.
Open Scope Z_scope.

(** A live (not closed) rsfile stream; its key in the table is its descriptor,
    which is also its handle in the registry (rsfileio_unix.py:141-142). *)
Record stream : Type := mkStream { st_uid : uid; st_closefd : bool }.

(** A lock request in progress: the local variables of lock_file after argument
    processing (rsfileio_abstract.py:562-567): absolute offset, low_level_blocking. *)
Record req : Type := mkReq {
  q_fd : Z; q_uid : uid; q_len : option Z; q_off : Z; q_shared : bool; q_block : bool }.
Definition q_end (q : req) : option Z := range_end (q_off q) (q_len q).
Definition q_rec (q : req) : lockrec := mkLock (q_fd q) (q_shared q) (q_off q) (q_end q).

(** What remains of close() after its list of kernel unlocks. *)
Inductive fin : Type :=
| FUnlock        (* unlock_file: nothing more, release the mutex *)
| FNone          (* close: nothing more, release the mutex *)
| FAdd           (* add_unique_id_data, then purge, then try_deleting (rsfileio_unix.py:146-153) *)
| FDel           (* try_deleting_unique_id_entry *)
| FExt.          (* closefd=False: the descriptor goes back to its user *)

(** The rest of an unlock_file()/close() call, executed while holding the
    registry mutex.  [g_closes]: descriptors taken out of the registry that remain
    to be closed (loop rsfileio_unix.py:56-58); [g_purge]: a
    _purge_pending_related_file_descriptors call comes next; [g_unlocks]: areas
    still to unlock at kernel level. *)
Record prog : Type := mkProg {
  g_fd : Z; g_uid : uid; g_closes : list Z; g_purge : bool;
  g_unlocks : list (Z * option Z); g_fin : fin }.

(** Program counter of a thread. *)
Inductive pc : Type :=
| PIdle                                  (* outside of rsfile *)
| PLockReg (q : req)                     (* about to call register_file_lock, abstract.py:597 *)
| PLockWait (q : req) (notified : bool)  (* in Condition.wait, registries.py:189 *)
| PLockBusy (q : req)                    (* register_file_lock returned False: check_timeout, abstract.py:608 *)
| PLockKern (q : req)                    (* registered; about to call fcntl (again), abstract.py:622 *)
| PLockFail (q : req)                    (* the finally clause, abstract.py:632-635 *)
| PProg (g : prog).                      (* inside unlock_file/close, mutex held *)

Inductive mtx : Type := MFree | MHeld (t : nat) | MDead.   (* MDead: owner lost by fork *)

Record proc : Type := mkProc {
  p_reg : registry;
  p_mutex : mtx;
  p_fds : Z -> option uid;          (* kernel descriptor table *)
  p_streams : Z -> option stream;   (* live rsfile streams by descriptor *)
  p_ext : Z -> bool;                (* open descriptor not owned by rsfile *)
  p_thr : list pc;
  p_child : bool }.                 (* ghost: created by fork *)

(** Ghost: locks obtained by a lock_file() call that returned, until the
    unlock_file()/close() that removes them starts its critical section. *)
Record hold : Type := mkHold { h_pid : Z; h_uid : uid; h_lock : lockrec }.

Record sys : Type := mkSys {
  s_procs : Z -> option proc;
  s_kern : klocks;
  s_holds : list hold }.

Inductive action : Type :=
| ABoot (p : Z)                                  (* a new process starts *)
| ASpawn (p : Z)                                 (* new thread *)
| AExit (p : Z)                                  (* process termination or kill *)
| AFork (p c : Z)                                (* an idle thread of p forks c *)
| AOpen (p : Z) (fd : Z) (u : uid)               (* rsfile stream opened by path *)
| AExtOpen (p : Z) (fd : Z) (u : uid)            (* descriptor opened outside rsfile *)
| AWrap (p : Z) (fd : Z) (closefd : bool)        (* rsfile stream around it *)
| ALock (p : Z) (t : nat) (fd : Z) (len : option Z) (off : Z) (shared block : bool)
| ARegister (p : Z) (t : nat)
| AWake (p : Z) (t : nat)
| ARetry (p : Z) (t : nat)
| AGiveUp (p : Z) (t : nat)
| AKern (p : Z) (t : nat)
| AKernFail (p : Z) (t : nat)
| AUnregister (p : Z) (t : nat)
| AUnlock (p : Z) (t : nat) (fd : Z) (len : option Z) (off : Z)
| AClose (p : Z) (t : nat) (fd : Z)
| AMicro (p : Z) (t : nat).

Definition set_proc (s : sys) (p : Z) (P : option proc) : sys :=
  mkSys (upd Z.eqb (s_procs s) p P) (s_kern s) (s_holds s).
Definition set_kern (s : sys) (K : klocks) : sys := mkSys (s_procs s) K (s_holds s).
Definition set_holds (s : sys) (H : list hold) : sys := mkSys (s_procs s) (s_kern s) H.

Definition with_reg (P : proc) (r : registry) : proc :=
  mkProc r (p_mutex P) (p_fds P) (p_streams P) (p_ext P) (p_thr P) (p_child P).
Definition with_mutex (P : proc) (m : mtx) : proc :=
  mkProc (p_reg P) m (p_fds P) (p_streams P) (p_ext P) (p_thr P) (p_child P).
Definition with_fds (P : proc) (f : Z -> option uid) : proc :=
  mkProc (p_reg P) (p_mutex P) f (p_streams P) (p_ext P) (p_thr P) (p_child P).
Definition with_streams (P : proc) (f : Z -> option stream) : proc :=
  mkProc (p_reg P) (p_mutex P) (p_fds P) f (p_ext P) (p_thr P) (p_child P).
Definition with_ext (P : proc) (f : Z -> bool) : proc :=
  mkProc (p_reg P) (p_mutex P) (p_fds P) (p_streams P) f (p_thr P) (p_child P).
Definition with_thr (P : proc) (l : list pc) : proc :=
  mkProc (p_reg P) (p_mutex P) (p_fds P) (p_streams P) (p_ext P) l (p_child P).
Definition set_pc (P : proc) (t : nat) (c : pc) : proc := with_thr P (nth_update (p_thr P) t c).

(** The (live) stream a thread is working on. *)
Definition busy_fd (c : pc) : option Z :=
  match c with
  | PIdle => None
  | PLockReg q | PLockWait q _ | PLockBusy q | PLockKern q | PLockFail q => Some (q_fd q)
  | PProg g => match g_fin g with FUnlock => Some (g_fd g) | _ => None end  (* a closing stream is no more usable *)
  end.
Definition is_busy (P : proc) (fd : Z) : bool :=
  existsb (fun c => match busy_fd c with Some f => f =? fd | None => false end) (p_thr P).

(** Condition.notify_all on the entry of [u], rsfile_registries.py:164. *)
Definition notify_all (u : uid) (l : list pc) : list pc :=
  map (fun c => match c with
                | PLockWait q _ => if uid_eqb (q_uid q) u then PLockWait q true else c
                | _ => c
                end) l.

Definition mutex_free (P : proc) : bool := match p_mutex P with MFree => true | _ => false end.
Definition holds_mutex (P : proc) (t : nat) : bool :=
  match p_mutex P with MHeld t' => Nat.eqb t t' | _ => false end.

(** kernel range of an unlock request, rsfileio_unix.py:297-301 *)
Definition kernel_end (off : Z) (len : option Z) : option Z :=
  kend off (match len with None => 0 | Some l => l end).

(** [len >= 0] or None: the argument checks of lock_file/unlock_file. *)
Definition good_len (len : option Z) : bool := match len with None => true | Some l => 0 <=? l end.

(** After register_file_lock's try: rsfile_registries.py:183-195 and
    rsfileio_abstract.py:607-609. *)
Definition after_try (P : proc) (t : nat) (q : req) (o : res bool) (r : registry) : option proc :=
  match o with
  | Ok true => Some (set_pc (with_reg P r) t (PLockKern q))
  | Ok false =>
      if q_block q
      then match add_waiting r (q_uid q) 1 with
           | Ok r' => Some (set_pc (with_reg P r') t (PLockWait q false))
           | Err _ => None
           end
      else Some (set_pc (with_reg P r) t (PLockBusy q))
  | Err _ => Some (set_pc (with_reg P r) t PIdle)     (* RuntimeError raised to the caller *)
  end.

(** One atomic piece of the critical section of unlock_file/close.
    Returns the process, the kernel locks and whether the call is over. *)
Definition micro (p : Z) (P : proc) (K : klocks) (t : nat) (g : prog) : option (proc * klocks) :=
  match g_closes g with
  | c :: cs =>
      (* unix.close(fd), rsfileio_unix.py:58 *)
      match p_fds P c with
      | None => None
      | Some u =>
          Some (set_pc (with_fds P (upd Z.eqb (p_fds P) c None)) t
                  (PProg (mkProg (g_fd g) (g_uid g) cs (g_purge g) (g_unlocks g) (g_fin g))),
                kclose K p u)
      end
  | [] =>
      if g_purge g then
        (* rsfileio_unix.py:52-56 *)
        let '(has, r1) := unique_id_has_locks p (p_reg P) (g_uid g) in
        let '(data, r2) := if has then ([], r1) else remove_unique_id_data p r1 (g_uid g) in
        Some (set_pc (with_reg P r2) t
                (PProg (mkProg (g_fd g) (g_uid g) data false (g_unlocks g) (g_fin g))), K)
      else
      match g_unlocks g with
      | (lo, hi) :: rest =>
          (* unix.lockf(fd, LOCK_UN, ...), rsfileio_unix.py:301, then the purge of line 303 *)
          match p_fds P (g_fd g) with
          | None => None
          | Some u =>
              Some (set_pc P t (PProg (mkProg (g_fd g) (g_uid g) [] true rest (g_fin g))),
                    kunlock K p u lo hi)
          end
      | [] =>
          match g_fin g with
          | FAdd =>
              match add_unique_id_data p (p_reg P) (g_uid g) (g_fd g) with
              | (Ok _, r') =>
                  Some (set_pc (with_reg P r') t
                          (PProg (mkProg (g_fd g) (g_uid g) [] true [] FDel)), K)
              | (Err _, _) => None
              end
          | FDel =>
              let '(_, r') := try_deleting_unique_id_entry p (p_reg P) (g_uid g) in
              Some (set_pc (with_reg P r') t (PProg (mkProg (g_fd g) (g_uid g) [] false [] FNone)), K)
          | FExt =>
              Some (set_pc (with_ext P (upd Z.eqb (p_ext P) (g_fd g) true)) t
                      (PProg (mkProg (g_fd g) (g_uid g) [] false [] FNone)), K)
          | FUnlock | FNone => Some (set_pc (with_mutex P MFree) t PIdle, K)
          end
      end
  end.

Definition lock_matches (p : Z) (u : uid) (h st : Z) (en : option Z) (x : hold) : bool :=
  (h_pid x =? p) && uid_eqb (h_uid x) u && (lk_handle (h_lock x) =? h)
  && (lk_start (h_lock x) =? st) && oz_eqb (lk_end (h_lock x)) en.
Definition owned_by (p : Z) (u : uid) (h : Z) (x : hold) : bool :=
  (h_pid x =? p) && uid_eqb (h_uid x) u && (lk_handle (h_lock x) =? h).

Definition fresh_proc (p : Z) : proc :=
  mkProc (mkReg p empty_map) MFree (fun _ => None) (fun _ => None) (fun _ => false) [PIdle] false.

(** The transition function: [None] = the action is not possible in this state. *)
Definition step (s : sys) (a : action) : option sys :=
  match a with
  | ABoot p =>
      match s_procs s p with
      | Some _ => None
      | None => Some (set_proc s p (Some (fresh_proc p)))
      end
  | ASpawn p =>
      match s_procs s p with
      | None => None
      | Some P => Some (set_proc s p (Some (with_thr P (p_thr P ++ [PIdle]))))
      end
  | AExit p =>
      match s_procs s p with
      | None => None
      | Some _ =>
          Some (mkSys (upd Z.eqb (s_procs s) p None) (kexit (s_kern s) p)
                      (filter (fun h => negb (h_pid h =? p)) (s_holds s)))
      end
  | AFork p c =>
      match s_procs s p, s_procs s c with
      | Some P, None =>
          if (existsb (fun x => match x with PIdle => true | _ => false end) (p_thr P))
             && negb (c =? r_pid (p_reg P))
          then Some (set_proc s c (Some (mkProc (p_reg P)
                 (match p_mutex P with MFree => MFree | _ => MDead end)
                 (p_fds P) (p_streams P) (p_ext P) [PIdle] true)))
          else None
      | _, _ => None
      end
  | AOpen p fd u =>
      match s_procs s p with
      | None => None
      | Some P =>
          match p_fds P fd with
          | Some _ => None
          | None =>
              if 0 <? fd
              then Some (set_proc s p (Some (with_streams (with_fds P (upd Z.eqb (p_fds P) fd (Some u)))
                                          (upd Z.eqb (p_streams P) fd (Some (mkStream u true))))))
              else None
          end
      end
  | AExtOpen p fd u =>
      match s_procs s p with
      | None => None
      | Some P =>
          match p_fds P fd with
          | Some _ => None
          | None => Some (set_proc s p (Some (with_ext (with_fds P (upd Z.eqb (p_fds P) fd (Some u)))
                                          (upd Z.eqb (p_ext P) fd true))))
          end
      end
  | AWrap p fd closefd =>
      match s_procs s p with
      | None => None
      | Some P =>
          match p_fds P fd with
          | None => None
          | Some u =>
              if p_ext P fd && (0 <? fd)
              then Some (set_proc s p (Some (with_streams (with_ext P (upd Z.eqb (p_ext P) fd false))
                                          (upd Z.eqb (p_streams P) fd (Some (mkStream u closefd))))))
              else None
          end
      end
  | ALock p t fd len off shared block =>
      match s_procs s p with
      | None => None
      | Some P =>
          match nth_error (p_thr P) t, p_streams P fd with
          | Some PIdle, Some st =>
              if negb (is_busy P fd) && good_len len
              then Some (set_proc s p (Some (set_pc P t
                     (PLockReg (mkReq fd (st_uid st) len off shared block)))))
              else None
          | _, _ => None
          end
      end
  | ARegister p t =>
      match s_procs s p with
      | None => None
      | Some P =>
          match nth_error (p_thr P) t with
          | Some (PLockReg q) =>
              if mutex_free P then
                let '(o, r) := register_once true p (p_reg P) (q_uid q) (q_fd q) (q_len q)
                                             (q_off q) (q_shared q) in
                match after_try P t q o r with
                | Some P' => Some (set_proc s p (Some P'))
                | None => None
                end
              else None
          | _ => None
          end
      end
  | AWake p t =>
      match s_procs s p with
      | None => None
      | Some P =>
          match nth_error (p_thr P) t with
          | Some (PLockWait q true) =>
              if mutex_free P then
                match add_waiting (p_reg P) (q_uid q) (-1) with
                | Err _ => None
                | Ok r1 =>
                    let '(o, r) := register_once false p r1 (q_uid q) (q_fd q) (q_len q)
                                                 (q_off q) (q_shared q) in
                    match after_try P t q o r with
                    | Some P' => Some (set_proc s p (Some P'))
                    | None => None
                    end
                end
              else None
          | _ => None
          end
      end
  | ARetry p t =>
      match s_procs s p with
      | None => None
      | Some P =>
          match nth_error (p_thr P) t with
          | Some (PLockBusy q) => Some (set_proc s p (Some (set_pc P t (PLockReg q))))
          | _ => None
          end
      end
  | AGiveUp p t =>
      match s_procs s p with
      | None => None
      | Some P =>
          match nth_error (p_thr P) t with
          | Some (PLockBusy q) => Some (set_proc s p (Some (set_pc P t PIdle)))
          | _ => None
          end
      end
  | AKern p t =>
      match s_procs s p with
      | None => None
      | Some P =>
          match nth_error (p_thr P) t with
          | Some (PLockKern q) =>
              match p_fds P (q_fd q) with
              | None => None
              | Some u =>
                  if q_off q <? 0 then None
                  else
                  match ksetlk (s_kern s) p u (q_shared q) (q_off q) (kernel_end (q_off q) (q_len q)) with
                  | None => None            (* blocked, or EAGAIN then sleep and retry *)
                  | Some K =>
                      Some (mkSys (upd Z.eqb (s_procs s) p (Some (set_pc P t PIdle))) K
                                  (mkHold p (q_uid q) (q_rec q) :: s_holds s))
                  end
              end
          | _ => None
          end
      end
  | AKernFail p t =>
      (* any kernel error / timeout at this point: check_timeout raises, abstract.py:628-629 *)
      match s_procs s p with
      | None => None
      | Some P =>
          match nth_error (p_thr P) t with
          | Some (PLockKern q) => Some (set_proc s p (Some (set_pc P t (PLockFail q))))
          | _ => None
          end
      end
  | AUnregister p t =>
      match s_procs s p with
      | None => None
      | Some P =>
          match nth_error (p_thr P) t with
          | Some (PLockFail q) =>
              if mutex_free P then
                match unregister_file_lock p (p_reg P) (q_uid q) (q_fd q) (q_len q) (q_off q) with
                | (Ok _, r, n) =>
                    let P1 := set_pc (with_reg P r) t PIdle in
                    Some (set_proc s p (Some (if n then with_thr P1 (notify_all (q_uid q) (p_thr P1)) else P1)))
                | (Err _, r, n) => None
                end
              else None
          | _ => None
          end
      end
  | AUnlock p t fd len off =>
      match s_procs s p with
      | None => None
      | Some P =>
          match nth_error (p_thr P) t, p_streams P fd with
          | Some PIdle, Some st =>
              if negb (is_busy P fd) && good_len len && (0 <=? off) && mutex_free P then
                match unregister_file_lock p (p_reg P) (st_uid st) fd len off with
                | (Ok _, r, n) =>
                    let g := mkProg fd (st_uid st) [] false [(off, kernel_end off len)] FUnlock in
                    let P1 := set_pc (with_mutex (with_reg P r) (MHeld t)) t (PProg g) in
                    let P2 := if n then with_thr P1 (notify_all (st_uid st) (p_thr P1)) else P1 in
                    Some (mkSys (upd Z.eqb (s_procs s) p (Some P2)) (s_kern s)
                            (filter (fun x => negb (lock_matches p (st_uid st) fd off (range_end off len) x))
                                    (s_holds s)))
                | (Err _, r, _) => Some (set_proc s p (Some (with_reg P r)))
                end
              else None
          | _, _ => None
          end
      end
  | AClose p t fd =>
      match s_procs s p with
      | None => None
      | Some P =>
          match nth_error (p_thr P) t, p_streams P fd with
          | Some PIdle, Some st =>
              if negb (is_busy P fd) && mutex_free P then
                let '(removed, r) := remove_file_locks p (p_reg P) (st_uid st) fd in
                let g := mkProg fd (st_uid st) [] false
                           (map (fun lk => (lk_start lk, lk_end lk)) removed)
                           (if st_closefd st then FAdd else FExt) in
                Some (mkSys (upd Z.eqb (s_procs s) p
                       (Some (set_pc (with_streams (with_mutex (with_reg P r) (MHeld t))
                                        (upd Z.eqb (p_streams P) fd None)) t (PProg g))))
                       (s_kern s)
                       (filter (fun x => negb (owned_by p (st_uid st) fd x)) (s_holds s)))
              else None
          | _, _ => None
          end
      end
  | AMicro p t =>
      match s_procs s p with
      | None => None
      | Some P =>
          match nth_error (p_thr P) t with
          | Some (PProg g) =>
              if holds_mutex P t then
                match micro p P (s_kern s) t g with
                | Some (P', K') => Some (mkSys (upd Z.eqb (s_procs s) p (Some P')) K' (s_holds s))
                | None => None
                end
              else None
          | _ => None
          end
      end
  end.

Definition init_sys : sys := mkSys (fun _ => None) [] [].

(** Executions in which every action satisfies the discipline [ok]. *)
Fixpoint exec (ok : sys -> action -> bool) (s : sys) (acts : list action) : option sys :=
  match acts with
  | [] => Some s
  | a :: rest =>
      if ok s a then match step s a with Some s' => exec ok s' rest | None => None end
      else None
  end.

(** No restriction. *)
Definition anything (_ : sys) (_ : action) : bool := true.
