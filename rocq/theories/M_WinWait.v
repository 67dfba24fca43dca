(** Model of lock_file() on windows with its waiting loop and its timeouts
    (rsfileio_abstract.py:534-636, once the arguments are checked) over rsfileio_windows.py:443-466
    and the registry of the process.  While the call sleeps or waits, time passes and the other
    streams and processes act: an external list of events.  No proofs here. *)
From Coq Require Import ZArith List Bool.
From Verif Require Import M_Base M_Registry M_World M_WinLocks S_WinLocks.
Import ListNotations.
Open Scope Z_scope.

(** One sleep or one wait: how long it lasts, and what is done meanwhile by others. *)
Record wev : Type := mkWev { we_dt : Z; we_ops : list wlop }.
Definition run_others (ops : list wlop) (s : wlsys) : wlsys :=
  fold_left (fun s op => snd (run_wlop op s)) ops s.

(** The call, and the attributes it reads: enforced_locking_timeout_value and
    default_spinlock_delay (rsfileio_abstract.py:86-87). *)
Record wlreq : Type := mkWq {
  wq_h : Z; wq_length : option Z; wq_off : Z; wq_shared : bool;
  wq_timeout : option Z; wq_enforced : option Z; wq_spin : Z }.

(** low_level_blocking, rsfileio_abstract.py:563-565 *)
Definition wq_blocking (q : wlreq) : bool :=
  match wq_timeout q, wq_enforced q with None, None => true | _, _ => false end.

(** check_timeout, rsfileio_abstract.py:569-590: what it raises, None when it sleeps;
    time.sleep() refuses a negative delay. *)
Definition wcheck_timeout (q : wlreq) (delay errno : Z) : option exn :=
  let sleep := if wq_spin q <? 0 then Some EValue else None in
  match wq_timeout q with
  | Some t => if t <=? delay then Some (ELocking errno) else sleep
  | None => match wq_enforced q with
            | Some t => if t <=? delay then Some ERuntime else sleep
            | None => sleep
            end
  end.

(** Where the loop is: before STEP ONE ([first]: entering register_file_lock, or woken up inside
    it), or before STEP TWO. *)
Inductive wphase : Type := WReg (first : bool) | WKern.

(** rsfileio_abstract.py:592-634.  A blocking LockFileEx returns when the range is free: it is
    asked again after each event.  The counter of waiting threads of the registry
    (rsfile_registries.py:188-190) is left out: the registry never makes a stream wait on windows. *)
Fixpoint wlock_loop (q : wlreq) (start : Z) (env : list wev) (ph : wphase) (s : wlsys) (now : Z) {struct env}
  : res unit * wlsys * Z :=
  let wait (next : wphase) (s : wlsys) :=
    match env with
    | [] => (Err EHang, s, now)
    | ev :: env' => wlock_loop q start env' next (run_others (we_ops ev) s) (now + we_dt ev)
    end in
  let give_up (e : exn) (s : wlsys) :=
    match unregister_file_lock (wk_pid s) (wk_reg s) (huid (wq_h q)) (wq_h q) (wq_length q) (wq_off q) with
    | (Ok _, r, _) => (Err e, wk_set_reg s r, now)
    | (Err e', r, _) => (Err e', wk_set_reg s r, now)
    end in
  let kernel (s : wlsys) :=
    match win_file_lock (wq_h q) (wq_length q) (wq_off q) (wq_shared q) s with
    | (Ok _, s2) => (Ok tt, s2, now)
    | (Err (EOS n), s2) =>
        if wq_blocking q && (n =? 13) then wait WKern s2
        else match wcheck_timeout q (now - start) n with
             | Some e => give_up e s2
             | None => wait WKern s2
             end
    | (Err e, s2) => give_up e s2
    end in
  match ph with
  | WKern => kernel s
  | WReg first =>
      match register_once first (wk_pid s) (wk_reg s) (huid (wq_h q)) (wq_h q) (wq_length q) (wq_off q) (wq_shared q) with
      | (Err e, r1) => (Err e, wk_set_reg s r1, now)
      | (Ok true, r1) => kernel (wk_set_reg s r1)
      | (Ok false, r1) =>
          if wq_blocking q then wait (WReg false) (wk_set_reg s r1)
          else match wcheck_timeout q (now - start) EPERM with
               | Some e => (Err e, wk_set_reg s r1, now)
               | None => wait (WReg true) (wk_set_reg s r1)
               end
      end
  end.

(** lock_file(timeout, length, offset, shared=shared) called at time [now] *)
Definition wlock_file (q : wlreq) (env : list wev) (s : wlsys) (now : Z) : res unit * wlsys * Z :=
  wlock_loop q now env (WReg true) s now.
