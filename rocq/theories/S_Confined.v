(** Specification vocabulary of C65: what the calls of one stream may change, and the methods of text streams. *)
From Coq Require Import ZArith List Bool.
From Verif Require Import M_Base M_Registry M_Kernel M_World M_Raw M_Buffered M_Text S_Closed.
Import ListNotations.
Open Scope Z_scope.

(** From [w] to [w'], nothing changed but the position of the descriptor [fd] and the file on which it is open. *)
Record confined (fd : Z) (w w' : world) : Prop := mkConfined {
  cf_names : w_names w' = w_names w;
  cf_others : forall d, d <> fd -> w_fds w' d = w_fds w d;
  cf_file : option_map o_uid (w_fds w' fd) = option_map o_uid (w_fds w fd);
  cf_files : forall v, option_map o_uid (w_fds w fd) <> Some v -> w_inodes w' v = w_inodes w v;
  cf_locks : w_kern w' = w_kern w;
  cf_registry : w_reg w' = w_reg w;
  cf_process : w_pid w' = w_pid w;
  cf_time : w_clock w' = w_clock w;
  cf_options : w_opts w' = w_opts w }.

(** Every file (pipes, which lose what is read, are left out) has the bytes it had. *)
Definition same_bytes (w w' : world) : Prop := forall v i, w_inodes w v = Some i -> n_kind i <> KPipe ->
  exists i', w_inodes w' v = Some i' /\ n_data i' = n_data i /\ n_kind i' = n_kind i.

(** The methods of buffered streams but lock_file, unlock_file and close. *)
Definition plain (m : bmethod) : Prop := match m with MLock _ _ _ _ _ | MUnlock _ _ _ | MClose => False | _ => True end.
(** The methods of a text stream but lock_file, unlock_file and close. *)
Inductive tmethod : Type :=
| TmRead (n : option Z) | TmReadline (n : option Z) | TmNext | TmWrite (s : list Z)
| TmTell | TmSeek (n whence : Z) | TmTruncate (n : option Z) | TmFlush | TmSize | TmSync (has_fdatasync metadata full : bool).
Definition run_tmethod (guess : nat -> nat -> nat -> Z) (c : tconf) (m : tmethod) (t : tstate) : tstate :=
  match m with
  | TmRead n => snd (t_read c n t) | TmReadline n => snd (t_readline c n t) | TmNext => snd (t_next c t)
  | TmWrite s => snd (t_write c s t) | TmTell => snd (t_tell guess c t) | TmSeek n wh => snd (t_seek guess c n wh t)
  | TmTruncate n => snd (t_truncate guess c n t) | TmFlush => snd (t_flush c t) | TmSize => snd (t_size c t)
  | TmSync h md fu => snd (t_sync c h md fu t)
  end.
