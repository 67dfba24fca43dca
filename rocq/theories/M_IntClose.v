(** close() of a raw stream when a signal handler raises (KeyboardInterrupt) at one of its instructions.  "pyio" as in M_Buffered.
    No proofs here. *)
From Coq Require Import ZArith List Bool.
From Verif Require Import M_Base M_Modes M_Registry M_Kernel M_World M_Raw M_IntWrite.
Import ListNotations.
Open Scope Z_scope.

(** How many more instructions run before the handler raises (None: it does not, or it has already), whether the stream is marked closed,
    the world. *)
Record cstate : Type := mkCst { c_due : option nat; c_marked : bool; c_world : world }.
Definition I (A : Type) : Type := comp cstate A.
Definition in_world {A} (m : M A) : I A := fun s => let '(r, w) := m (c_world s) in (r, mkCst (c_due s) (c_marked s) w).
(** Between two instructions; the handler raises once. *)
Definition tick : I unit :=
  fun s => match c_due s with
           | Some O => (Err HANDLER, mkCst None (c_marked s) (c_world s))
           | Some (S n) => (Ok tt, mkCst (Some n) (c_marked s) (c_world s))
           | None => (Ok tt, s)
           end.
(** self.__closed = True *)
Definition mark : I unit := fun s => (Ok tt, mkCst (c_due s) true (c_world s)).

(** The calls of the registry, rsfile_registries.py:205-282 *)
Definition has_locks (u : uid) : M bool :=
  fun w => let '(b, r) := unique_id_has_locks (w_pid w) (w_reg w) u in (Ok b, set_reg w r).
Definition take_data (u : uid) : M (list Z) :=
  fun w => let '(l, r) := remove_unique_id_data (w_pid w) (w_reg w) u in (Ok l, set_reg w r).
Definition add_data (u : uid) (fd : Z) : M unit :=
  fun w => let '(x, r) := add_unique_id_data (w_pid w) (w_reg w) u fd in (x, set_reg w r).
Definition drop_entry (u : uid) : M unit :=
  fun w => let '(_, r) := try_deleting_unique_id_entry (w_pid w) (w_reg w) u in (Ok tt, set_reg w r).
Definition take_locks (u : uid) (fd : Z) : M (list lockrec) :=
  fun w => let '(l, r) := remove_file_locks (w_pid w) (w_reg w) u fd in (Ok l, set_reg w r).

(** [for fd in data_list: unix.close(fd)], rsfileio_unix.py:56-58 *)
Fixpoint close_all_i (fds : list Z) : I unit :=
  match fds with
  | [] => ret tt
  | fd :: r => tick ;; in_world (sys_close fd) ;; tick ;; close_all_i r
  end.
(** rsfileio_unix.py:46-60 *)
Definition purge_i (u : uid) : I unit :=
  tick ;;
  has <- in_world (has_locks u) ;;
  tick ;;
  if has then ret tt
  else fds <- in_world (take_data u) ;; tick ;; close_all_i fds.
(** rsfileio_unix.py:294-303 *)
Definition unlock_i (f : rawio) (length : option Z) (abs_offset : Z) : I unit :=
  finally (tick ;; in_world (sys_unlock (fd_of f) abs_offset (klen length)) ;; tick) (purge_i (uid_of f)).
(** The loop over the removed locks, rsfileio_abstract.py:218-223 *)
Fixpoint unlock_each_i (f : rawio) (l : list lockrec) : I unit :=
  match l with
  | [] => ret tt
  | lk :: r =>
      let length := match lk_end lk with None => None | Some e => Some (e - lk_start lk) end in
      tick ;; unlock_i f length (lk_start lk) ;; unlock_each_i f r
  end.
(** rsfileio_unix.py:144-153 *)
Definition close_streams_i (f : rawio) : I unit :=
  if f_closefd f then
    match f_uid f, f_fd f with
    | Some u, Some fd =>
        tick ;; in_world (add_data u fd) ;; tick ;; purge_i u ;; tick ;; in_world (drop_entry u)
    | _, _ => ret tt
    end
  else ret tt.
(** The [finally] clause of close(), rsfileio_abstract.py:213-227 *)
Definition close_rest_i (f : rawio) : I unit :=
  (match f_uid f, f_fd f with
   | Some u, Some fd => tick ;; l <- in_world (take_locks u fd) ;; tick ;; unlock_each_i f l
   | _, _ => ret tt
   end) ;;
  close_streams_i f.
(** IOBase.close, pyio:390-400; flush() of an open raw stream does nothing, rsfileio_abstract.py:497-504.  The first instruction is before
    the [try] of IOBase.close. *)
Definition mark_i : I unit := tick ;; finally tick mark ;; tick.
(** close(), rsfileio_abstract.py:207-227; [c_marked] is what self.closed says. *)
Definition close_i (f : rawio) : I unit :=
  fun s => if c_marked s then (Ok tt, s) else (tick ;; finally mark_i (close_rest_i f)) s.

(** close() called again and again, the handler of the n-th call raising after [due] instructions; what each call returned. *)
Fixpoint closes_i (f : rawio) (dues : list (option nat)) (c : bool) (w : world) : list (res unit) * (bool * world) :=
  match dues with
  | [] => ([], (c, w))
  | d :: ds => let '(r, s) := close_i f (mkCst d c w) in
               let '(rs, e) := closes_i f ds (c_marked s) (c_world s) in (r :: rs, e)
  end.
