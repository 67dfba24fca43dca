(** Model of detach() of buffered and text streams (pyio:832-838, 2431-2437), and of close() and of the destructor of a stream
    that was detached.  No proofs here. *)
From Coq Require Import ZArith List Bool.
From Verif Require Import M_Base M_World M_Raw M_Buffered M_Text.
Import ListNotations.
Open Scope Z_scope.

(** A buffered stream, and whether its raw stream is still there ([self.raw is not None]). *)
Record dbuf : Type := mkDb { db_b : bstate; db_raw : bool }.
(** detach, pyio:832-838 *)
Definition b_detach (k : bkind) : comp dbuf rawio :=
  fun d =>
    if db_raw d then
      match b_flush k (db_b d) with
      | (Ok _, b) => (Ok (b_raw b), mkDb b false)
      | (Err e, b) => (Err e, mkDb b true)
      end
    else (Err EValue, d).
(** close, pyio:824-830, 1315-1328 *)
Definition db_close (k : bkind) : comp dbuf unit :=
  fun d => if db_raw d then let '(r, b) := b_close k (db_b d) in (r, mkDb b true) else (Ok tt, d).
(** The destructor, pyio:407-430: asking a detached stream whether it is closed raises AttributeError, and
    it is left alone. *)
Definition db_del (k : bkind) : comp dbuf unit :=
  fun d => if db_raw d then let '(r, b) := b_close k (db_b d) in (Ok tt, mkDb b true) else (Ok tt, d).

(** A text stream, and whether its buffered stream is still there. *)
Record dtext : Type := mkDt { dt_t : tstate; dt_buffer : bool }.
(** detach, pyio:2431-2437 *)
Definition t_detach (c : tconf) : comp dtext bstate :=
  fun d =>
    if dt_buffer d then
      match t_flush c (dt_t d) with
      | (Ok _, t) => (Ok (t_b t), mkDt t false)
      | (Err e, t) => (Err e, mkDt t true)
      end
    else (Err EValue, d).
(** close, pyio:2176-2181 *)
Definition dt_close (c : tconf) : comp dtext unit :=
  fun d => if dt_buffer d then let '(r, t) := t_close c (dt_t d) in (r, mkDt t true) else (Ok tt, d).
