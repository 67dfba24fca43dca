(** Specification vocabulary for the handles and C descriptors of a windows process. *)
From Coq Require Import ZArith List Bool Ascii.
From Verif Require Import M_Base M_Modes M_World M_WinHandles.
Import ListNotations.
Open Scope Z_scope.

(** The file is designated by its path. *)
Definition win_by_path (rk : raw_kwargs) (p : list ascii) : Prop :=
  rk_path rk = NPath p /\ rk_fileno rk = None /\ rk_handle rk = None.
(** The stream is writable. *)
Definition win_writes (rk : raw_kwargs) : bool := rk_write rk || rk_append rk.

(** Number of C descriptors in use. *)
Fixpoint used (l : list (option Z)) : Z :=
  match l with [] => 0 | Some _ :: r => 1 + used r | None :: r => used r end.

(** What can be called on an open stream. *)
Inductive wop : Type := WFileno | WHandle | WIsatty.
Definition run_wop (tty : Z -> bool) (op : wop) (z : wst) (s : wsys) : wst * wsys :=
  match op with
  | WFileno => let '(_, z1, s1) := win_fileno z s in (z1, s1)
  | WHandle => let '(_, z1, s1) := win_handle z s in (z1, s1)
  | WIsatty => let '(_, z1, s1) := win_isatty tty z s in (z1, s1)
  end.
Fixpoint run_wops (tty : Z -> bool) (ops : list wop) (z : wst) (s : wsys) : wst * wsys :=
  match ops with
  | [] => (z, s)
  | op :: r => let '(z1, s1) := run_wop tty op z s in run_wops tty r z1 s1
  end.

(** A stream is opened, used and closed. *)
Inductive lifetime (blk : bool) (rk : raw_kwargs) (s s3 : wsys) : Prop :=
| Lifetime ro tty ops z s1 z2 s2 r z3 :
    win_open blk rk ro s = (Ok z, s1) -> run_wops tty ops z s1 = (z2, s2) -> win_close z2 s2 = (r, z3, s3) ->
    lifetime blk rk s s3.
(** One after the other, [n] times. *)
Inductive lifetimes (blk : bool) (rk : raw_kwargs) : nat -> wsys -> wsys -> Prop :=
| Lt_none s : lifetimes blk rk O s s
| Lt_more n s s1 s2 : lifetime blk rk s s1 -> lifetimes blk rk n s1 s2 -> lifetimes blk rk (S n) s s2.
