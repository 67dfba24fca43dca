(** Specification vocabulary for opening files by name: arguments that make sense, and the stream
    and the system after a success (C92). *)
From Coq Require Import ZArith List Bool Ascii.
From Verif Require Import M_Base M_Modes M_Registry M_Kernel M_World M_Raw M_Open S_Bytes S_Modes S_Locks S_LockFile S_Args S_Files S_Helpers.
Import ListNotations.
Open Scope Z_scope.

(** The arguments make sense together and ask for [wi]. *)
Record coherent (py_u : bool) (a : openargs) (wi : wish) : Prop := mkCoherent {
  co_mode : (std_ok py_u (a_mode a) /\ std_means (a_mode a) wi) \/ (adv_ok (a_mode a) /\ adv_means (a_mode a) wi);
  co_closefd : a_closefd a = true;
  co_mutex : a_mutex a = true -> a_thread_safe a = true;
  co_binary : w_binary wi = true -> a_enc a = false /\ a_errs a = false /\ a_nl a = false;
  co_text : w_binary wi = false -> a_buffering a <> Some 0 /\ a_text_error a = None;
  co_timeout : a_locking a = true -> ~ wrong_nonneg (a_timeout a) }.

(** The file is there or not, as the creation flags want it. *)
Definition creation_fits (wi : wish) (w : world) (p : list ascii) : Prop :=
  (w_must_create wi = true -> w_names w p = None) /\ (w_must_not_create wi = true -> w_names w p <> None).

(** [s], in [w'], is a new stream on the file named [p], as [wi] and the other arguments ask for it.
    [c] is the content of the file before. *)
Record opened_as (wi : wish) (a : openargs) (p : list ascii) (c : list Z) (w : world) (s : stream) (w' : world)
    (fd : Z) (o : ofd) : Prop := mkOpenedAs {
  (* a new descriptor, with the rights asked for, on the file of this name *)
  oa_fd : f_fd (st_raw s) = Some fd /\ f_closed (st_raw s) = false /\ w_fds w fd = None /\ w_fds w' fd = Some o;
  oa_file : w_names w' p = Some (o_uid o) /\ (w_names w p <> None -> w_names w p = Some (o_uid o));
  oa_rights : fd_rights wi o;
  oa_methods : f_readable (st_raw s) = w_read wi /\ f_writable (st_raw s) = w_write wi;
  (* the content is kept or erased; reading starts at 0, appending where the file ended *)
  oa_content : has_content w' p (if w_erase wi then [] else c);
  oa_place : o_pos o = if w_append wi then len c else 0;
  (* the layers asked for *)
  oa_layer : st_layer s = match a_buffering a with
                          | Some 0 => LRaw
                          | _ => if w_read wi && w_write wi then LRandom else if w_write wi then LWriter else LReader
                          end;
  oa_text : st_text s = negb (w_binary wi);
  oa_safe : st_safe s = a_thread_safe a;
  (* the whole file is locked, or nothing *)
  oa_lock : if a_locking a then table w' (o_uid o) = [mkLock fd (negb (w_write wi)) 0 None]
                                /\ forall b, 0 <= b -> process_holds w' (o_uid o) (negb (w_write wi)) b
            else table w' (o_uid o) = [];
  (* nothing else happened *)
  oa_fds : forall d, d <> fd -> w_fds w' d = w_fds w d;
  oa_names : forall q, q <> p -> w_names w' q = w_names w q;
  oa_files : forall v, v <> o_uid o -> w_inodes w' v = w_inodes w v;
  oa_tables : forall v, v <> o_uid o -> table w' v = table w v;
  oa_locks : forall v sh b, v <> o_uid o -> (process_holds w' v sh b <-> process_holds w v sh b) }.
