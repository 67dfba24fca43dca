(** POSIX advisory record locks, as used through fcntl.lockf in
    rsfileio_unix.py:274-303 (rsbackend/unix_stdlib.py re-exports fcntl.lockf).
    This is the contract of the operating system (POSIX fcntl(2), "Advisory
    record locking"), not code of the repository:
    - locks belong to (process, inode); a process's new lock replaces its own old
      locks on the bytes concerned, splitting them when needed;
    - two processes never hold overlapping locks on a file unless both are shared;
    - unlocking removes the caller's locks on the given bytes;
    - closing ANY descriptor of the process on the inode removes all its locks there;
    - locks are not inherited by fork and vanish with the process.
    No proofs here. *)
From Coq Require Import ZArith List Bool.
From Verif Require Import M_Base M_Registry.
Import ListNotations.
Open Scope Z_scope.

(** A held segment [k_lo, k_hi) (k_hi = None: to infinity). *)
Record kseg : Type := mkSeg {
  k_pid : Z; k_ino : uid; k_shared : bool; k_lo : Z; k_hi : option Z }.
Definition klocks : Type := list kseg.

(** fcntl's range from (len, start): len 0 means infinity; rsfileio_unix.py:289-292. *)
Definition kend (start : Z) (length : Z) : option Z :=
  if length =? 0 then None else Some (start + length).

Definition own (pid : Z) (ino : uid) (s : kseg) : bool :=
  (k_pid s =? pid) && uid_eqb (k_ino s) ino.

(** Does a request of [pid] conflict with segment [s]? *)
Definition kconflict (pid : Z) (ino : uid) (shared : bool) (lo : Z) (hi : option Z) (s : kseg) : bool :=
  negb (k_pid s =? pid) && uid_eqb (k_ino s) ino
  && negb (k_shared s && shared)
  && areas_overlap (k_lo s) (k_hi s) lo hi.

Definition opt_min (a b : option Z) : option Z :=
  match a, b with
  | None, x => x
  | x, None => x
  | Some x, Some y => Some (Z.min x y)
  end.

Definition nonempty (lo : Z) (hi : option Z) : bool :=
  match hi with None => true | Some h => lo <? h end.

(** What is left of [s] once [lo, hi) is cut out of it. *)
Definition cut_seg (lo : Z) (hi : option Z) (s : kseg) : list kseg :=
  let left_ := (k_lo s, opt_min (k_hi s) (Some lo)) in
  let left_l := if nonempty (fst left_) (snd left_)
                then [mkSeg (k_pid s) (k_ino s) (k_shared s) (fst left_) (snd left_)] else [] in
  let right_l :=
    match hi with
    | None => []
    | Some h => let r := (Z.max h (k_lo s), k_hi s) in
                if nonempty (fst r) (snd r)
                then [mkSeg (k_pid s) (k_ino s) (k_shared s) (fst r) (snd r)] else []
    end in
  left_l ++ right_l.

(** F_UNLCK *)
Definition kunlock (K : klocks) (pid : Z) (ino : uid) (lo : Z) (hi : option Z) : klocks :=
  flat_map (fun s => if own pid ino s then cut_seg lo hi s else [s]) K.

(** F_SETLK: None = EAGAIN/EACCES (conflict). *)
Definition ksetlk (K : klocks) (pid : Z) (ino : uid) (shared : bool) (lo : Z) (hi : option Z)
  : option klocks :=
  if existsb (kconflict pid ino shared lo hi) K then None
  else Some (mkSeg pid ino shared lo hi :: kunlock K pid ino lo hi).

(** close(2) on a descriptor of [pid] referring to [ino]. *)
Definition kclose (K : klocks) (pid : Z) (ino : uid) : klocks :=
  filter (fun s => negb (own pid ino s)) K.

(** Process termination. *)
Definition kexit (K : klocks) (pid : Z) : klocks :=
  filter (fun s => negb (k_pid s =? pid)) K.
