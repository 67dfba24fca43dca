(** Specification vocabulary for the functions reading and writing whole files. *)
From Coq Require Import ZArith List Bool Ascii.
From Verif Require Import M_Base M_Modes M_Registry M_Kernel M_World S_Locks.
Import ListNotations.
Open Scope Z_scope.

(** Path [p] names a regular file with content [c]. *)
Definition has_content (w : world) (p : list ascii) (c : list Z) : Prop :=
  exists u i, w_names w p = Some u /\ w_inodes w u = Some i /\ n_kind i = KReg /\ n_data i = c.

(** [c]: the content of [p] in [w], nothing if there is no file. *)
Definition had_content (w : world) (p : list ascii) (c : list Z) : Prop :=
  has_content w p c \/ (w_names w p = None /\ c = []).

(** A content [c] after what others did during the waits [evs]. *)
Definition content_after (evs : list envev) (c : list Z) : list Z :=
  fold_left (fun c ev => match ev_data ev with Some d => d | None => c end) evs c.

(** The locks of other processes after the same waits. *)
Definition locks_after (evs : list envev) (K : klocks) : klocks :=
  fold_left (fun K ev => match ev_kern ev with Some K' => K' | None => K end) evs K.
(** Among the locks [K], one of another process than [pid] keeps readers ([writer] = false) or writers out of file [u]. *)
Definition kept_out (writer : bool) (pid : Z) (u : uid) (K : klocks) : Prop :=
  exists s b, In s K /\ k_pid s <> pid /\ k_ino s = u /\ (writer = false -> k_shared s = false)
              /\ 0 <= b /\ in_range (k_lo s) (k_hi s) b.

(** No other process writes during the waits. *)
Definition no_writer (w : world) : Prop := forall ev, In ev (w_env w) -> ev_data ev = None.

(** [p] is not the name of a pipe (nor of a device, nor of a terminal). *)
Definition not_pipe (w : world) (p : list ascii) : Prop :=
  forall u i, w_names w p = Some u -> w_inodes w u = Some i -> n_kind i <> KPipe.

(** No read blocks or breaks. *)
Definition no_block (w : world) : Prop := ~ In (IoErr EAGAIN) (w_io w) /\ ~ In (IoErr EPIPE) (w_io w).

(** The others only append, during the waits [evs], starting from content [c]: [ds] is what they append. *)
Fixpoint others_append (c : list Z) (evs : list envev) (ds : list (list Z)) : Prop :=
  match evs with
  | [] => ds = []
  | ev :: evs =>
      match ev_data ev with
      | None => others_append c evs ds
      | Some c' => exists d ds', ds = d :: ds' /\ c' = c ++ d /\ others_append c' evs ds'
      end
  end.
