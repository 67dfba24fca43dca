(** Specification vocabulary for locks on windows. *)
From Coq Require Import ZArith List Bool.
From Verif Require Import M_Base M_Registry M_World M_WinLocks S_Locks.
Import ListNotations.
Open Scope Z_scope.

(** The locks that the streams of the process hold through handle [h], from the results of the
    calls made on it: (shared, first byte, length). *)
Definition wheld : Type := (bool * Z * option Z)%type.
Definition hd_covers (x : wheld) (b : Z) : Prop := let '(_, start, length) := x in covers start length b.
Definition hd_shared (x : wheld) : bool := let '(sh, _, _) := x in sh.

(** What happens: calls of the process on its streams, and system calls of the other processes. *)
Inductive wlop : Type :=
| WLock (h : Z) (length : option Z) (offset : Z) (shared : bool)
| WUnlock (h : Z) (length : option Z) (offset : Z)
| WClose (h : Z)
| OLock (h : Z) (off len : Z) (shared : bool)
| OUnlock (h : Z) (off len : Z)
| OClose (h : Z).

(** The arguments fit in 64 bits. *)
Definition fits (length : option Z) (offset : Z) : Prop :=
  0 <= offset < 2 ^ 64 /\ match length with None => True | Some l => 0 <= l < 2 ^ 64 end.
(** [mine h]: handle [h] is one of the process. *)
Definition wlop_ok (mine : Z -> bool) (op : wlop) : Prop :=
  match op with
  | WLock h length offset _ => mine h = true /\ fits length offset
  | WUnlock h length _ => mine h = true /\ match length with None => True | Some l => 0 <= l end
  | WClose h => mine h = true
  | OLock h _ _ _ | OUnlock h _ _ | OClose h => mine h = false
  end.

(** A byte range as the four words of the system calls. *)
Definition words (off len : Z) : Z * Z * Z * Z := (len mod 2 ^ 32, len / 2 ^ 32, off mod 2 ^ 32, off / 2 ^ 32).
Definition run_wlop (op : wlop) (s : wlsys) : res unit * wlsys :=
  match op with
  | WLock h length offset sh => wlock_once h length offset sh s
  | WUnlock h length offset => wunlock h length offset s
  | WClose h => wclose h s
  | OLock h off len sh => lock_file_ex h (words off len) sh s
  | OUnlock h off len => unlock_file_ex h (words off len) s
  | OClose h => drop_handle h s
  end.

(** A length 0 means the same as no length. *)
Definition same_length (a b : option Z) : bool :=
  match a, b with
  | Some x, Some y => x =? y
  | None, Some y => y =? 0
  | Some x, None => x =? 0
  | None, None => true
  end.
Fixpoint drop_held (l : list wheld) (start : Z) (length : option Z) : list wheld :=
  match l with
  | [] => []
  | (sh, st, len) :: r => if (st =? start) && same_length len length then r else (sh, st, len) :: drop_held r start length
  end.
(** The locks the program has, given the results of its calls. *)
Definition note (op : wlop) (r : res unit) (m : Z -> list wheld) : Z -> list wheld :=
  match op, r with
  | WLock h length offset sh, Ok _ => upd Z.eqb m h (m h ++ [(sh, offset, length)])
  | WUnlock h length offset, Ok _ => upd Z.eqb m h (drop_held (m h) offset length)
  | WClose h, _ => upd Z.eqb m h []
  | _, _ => m
  end.
Fixpoint run_wlops (ops : list wlop) (m : Z -> list wheld) (s : wlsys) : (Z -> list wheld) * wlsys :=
  match ops with
  | [] => (m, s)
  | op :: r => let '(x, s1) := run_wlop op s in run_wlops r (note op x m) s1
  end.
Definition no_locks (pid : Z) (file : Z -> Z) (strict : bool) : wlsys := mkWls (mkReg pid empty_map) pid [] file strict.
