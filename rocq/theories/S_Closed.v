(** Specification vocabulary: the methods of a buffered stream and the classes that have them. *)
From Coq Require Import ZArith List Bool.
From Verif Require Import M_Base M_Registry M_Kernel M_World M_Raw M_Buffered M_BufLines.
Import ListNotations.
Open Scope Z_scope.

Inductive bmethod : Type :=
| MRead (n : option Z) | MRead1 (n : Z) | MPeek (n : Z) | MReadinto (n : Z) (read1 : bool)
| MReadline (size : Z) | MReadlines (hint : Z)
| MWrite (d : list Z) | MWritelines (ds : list (list Z))
| MSeek (offset whence : Z) | MTell | MTruncate (size : option Z) | MFlush | MSize
| MSync (has_fdatasync metadata full : bool)
| MLock (timeout length offset : parg) (whence : Z) (shared : sarg)
| MUnlock (length offset : parg) (whence : Z)
| MClose.

(** What a call gives: bytes, a number, lines, or nothing in particular. *)
Inductive bvalue : Type :=
| VBytes (d : option (list Z)) | VInt (n : Z) | VLines (l : list (list Z)) | VUnit.

Definition as_ {A} (g : A -> bvalue) (m : B A) : B bvalue := x <- m ;; ret (g x).
Definition call (k : bkind) (m : bmethod) : B bvalue :=
  match m with
  | MRead n => as_ VBytes (b_read k n)
  | MRead1 n => as_ VBytes (b_read1 k n)
  | MPeek n => as_ (fun d => VBytes (Some d)) (b_peek k n)
  | MReadinto n r1 => as_ (fun d => VBytes (Some d)) (b_readinto k n r1)
  | MReadline n => as_ (fun d => VBytes (Some d)) (b_readline k n)
  | MReadlines h => as_ VLines (b_readlines k h)
  | MWrite d => as_ VInt (b_write k d)
  | MWritelines ds => as_ (fun _ => VUnit) (b_writelines k ds)
  | MSeek o wh => as_ VInt (b_seek k o wh)
  | MTell => as_ VInt (b_tell k)
  | MTruncate s => as_ VInt (b_truncate k s)
  | MFlush => as_ (fun _ => VUnit) (b_flush k)
  | MSize => as_ VInt (b_fsize k)
  | MSync h md fu => as_ (fun _ => VUnit) (b_sync h k md fu)
  | MLock t l o wh s => as_ (fun _ => VUnit) (b_lock_file k t l o wh s)
  | MUnlock l o wh => as_ (fun _ => VUnit) (b_unlock_file k l o wh)
  | MClose => as_ (fun _ => VUnit) (b_close k)
  end.

(** The class has no such operation: a reader does not write, a writer does not read. *)
Definition lacks (k : bkind) (m : bmethod) : Prop :=
  match k, m with
  | BReader, MWrite _ => True
  | BWriter, (MRead _ | MRead1 _ | MPeek _ | MReadinto _ _ | MReadline _) => True
  | _, _ => False
  end.
