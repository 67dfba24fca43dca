(** RSFileIO(...) when a signal handler raises (KeyboardInterrupt) at one of the instructions of __init__.  No proofs here. *)
From Coq Require Import ZArith List Bool.
From Verif Require Import M_Base M_Modes M_Registry M_Kernel M_World M_Raw M_IntWrite.
Import ListNotations.
Open Scope Z_scope.

(** How many more instructions run before the handler raises (None: it does not, or it has already), the object under construction, the
    world. *)
Record bstate : Type := mkBst { b_due : option nat; b_obj : rawio; b_world : world }.
Definition B (A : Type) : Type := comp bstate A.
Definition outside {A} (m : M A) : B A := fun s => let '(r, w) := m (b_world s) in (r, mkBst (b_due s) (b_obj s) w).
(** Between two instructions; the handler raises once. *)
Definition step : B unit :=
  fun s => match b_due s with
           | Some O => (Err HANDLER, mkBst None (b_obj s) (b_world s))
           | Some (S n) => (Ok tt, mkBst (Some n) (b_obj s) (b_world s))
           | None => (Ok tt, s)
           end.
(** An attribute is assigned. *)
Definition assign (g : rawio -> rawio) : B unit := fun s => (Ok tt, mkBst (b_due s) (g (b_obj s)) (b_world s)).
(** self._fileno, rsfileio_unix.py:84, 88, 123 *)
Definition with_fileno (fd : Z) (f : rawio) : rawio :=
  mkRio (Some fd) (f_uid f) (f_closed f) (f_closefd f) (f_readable f) (f_writable f) (f_append f) (f_seekable f) (f_enforced f) (f_spin f).
(** self._lock_registry_inode and self._lock_registry_descriptor; close() looks at them only when both are there,
    rsfileio_unix.py:140-141, 147, rsfileio_abstract.py:217 *)
Definition with_keys (u : uid) (f : rawio) : rawio :=
  mkRio (f_fd f) (Some u) (f_closed f) (f_closefd f) (f_readable f) (f_writable f) (f_append f) (f_seekable f) (f_enforced f) (f_spin f).
(** self._seekable, rsfileio_abstract.py:177-181 *)
Definition with_seekable (b : bool) (f : rawio) : rawio :=
  mkRio (f_fd f) (f_uid f) (f_closed f) (f_closefd f) (f_readable f) (f_writable f) (f_append f) b (f_enforced f) (f_spin f).

(** rsfileio_unix.py:139-141: unique_id(), and the two assignments. *)
Definition keys_i (fd : Z) : B unit :=
  step ;;
  st <- outside (sys_fstat fd) ;;
  step ;;
  step ;;
  let '(u, _, _) := st in assign (with_keys u).
(** rsfileio_unix.py:90-137; the handler may raise when open(2) has returned, before self._fileno is assigned. *)
Definition open_path_i (p : list Ascii.ascii) (rk : raw_kwargs) : B unit :=
  step ;;
  fd <- outside (sys_open p (unix_open_flags rk)) ;;
  step ;;
  assign (with_fileno fd) ;;
  step ;;
  st <- outside (sys_fstat fd) ;;
  let '(_, k, _) := st in
  match k with
  | KDir => raise (EOS EISDIR)
  | _ => step ;; outside (sys_set_inheritable fd (rk_inheritable rk)) ;; keys_i fd
  end.
(** rsfileio_unix.py:64-141 *)
Definition create_i (rk : raw_kwargs) : B unit :=
  match rk_handle rk, rk_fileno rk, rk_path rk with
  | Some h, _, _ => step ;; assign (with_fileno h) ;; keys_i h
  | None, Some fd, _ => step ;; assign (with_fileno fd) ;; keys_i fd
  | None, None, NPath p => open_path_i p rk
  | None, None, _ => raise EType
  end.
(** [if append: self.seek(0, os.SEEK_END)], rsfileio_abstract.py:189-195 *)
Definition to_end (f : rawio) : M unit :=
  fun w => match raw_seek f 0 2 w with
           | (Ok _, w') => (Ok tt, w')
           | (Err (EOS e), w') => (if e =? ESPIPE then Ok tt else Err (EOS e), w')
           | (Err e, w') => (Err e, w')
           end.
(** rsfileio_abstract.py:167-195 *)
Definition settle_i (rk : raw_kwargs) : B unit :=
  step ;;
  st <- (fun s => outside (sys_fstat (fd_of (b_obj s))) s) ;;
  let '(_, k, _) := st in
  match k with
  | KDir => if wraps rk then assign (fun f => set_closefd f false) ;; raise (EOS EISDIR) else raise EAssert
  | _ =>
      step ;;
      assign (with_seekable (match k with KReg => true | _ => false end)) ;;
      step ;;
      (if rk_append rk then fun s => outside (to_end (b_obj s)) s else ret tt) ;;
      step
  end.
(** __init__, rsfileio_abstract.py:70-195 *)
Definition init_i (rk : raw_kwargs) : B unit :=
  step ;;
  match init_checks rk with
  | Err e => raise e
  | Ok _ => create_i rk ;; settle_i rk
  end.
(** RSFileIO(...), as in M_Raw.raw_open: the finalizer of an object whose __init__ raised calls close(). *)
Definition open_i (rk : raw_kwargs) (due : option nat) (w : world) : res rawio * world :=
  let f0 := mkRio None None false (rk_closefd rk) (rk_read rk) (rk_write rk || rk_append rk) (rk_append rk) false
                  (opt_enforced (w_opts w)) (opt_spin (w_opts w)) in
  match init_i rk (mkBst due f0 w) with
  | (Ok _, s) => (Ok (b_obj s), b_world s)
  | (Err e, s) => (Err e, snd (raw_close (b_obj s) (b_world s)))
  end.
