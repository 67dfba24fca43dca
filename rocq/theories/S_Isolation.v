(** Vocabulary of isolation: the lock system of M_LockSys together with the bytes of the files,
    which streams read and write at any moment, between any two steps of the others. *)
From Coq Require Import ZArith List Bool.
From Verif Require Import M_Base M_Registry M_LockSys S_Locks S_LockSys.
Import ListNotations.
Open Scope Z_scope.

(** The system and the contents of all files, by byte position. *)
Record fsys : Type := mkFS { fs_sys : sys; fs_bytes : uid -> Z -> Z }.

(** A step of the lock system, or one byte that reaches the file through the stream of descriptor
    [fd] of process [p] (a write of several bytes is several events). *)
Inductive event : Type :=
| ESys (a : action)
| EWrite (p fd b v : Z).

(** The file of a stream. *)
Definition file_of (s : sys) (p fd : Z) : option uid :=
  match s_procs s p with
  | Some P => match p_streams P fd with Some st => Some (st_uid st) | None => None end
  | None => None
  end.

Definition store (f : uid -> Z -> Z) (u : uid) (b v : Z) : uid -> Z -> Z :=
  fun u' b' => if uid_eqb u' u && (b' =? b) then v else f u' b'.

Definition estep (fs : fsys) (e : event) : option fsys :=
  match e with
  | ESys a => match step (fs_sys fs) a with Some s' => Some (mkFS s' (fs_bytes fs)) | None => None end
  | EWrite p fd b v =>
      match file_of (fs_sys fs) p fd with
      | Some u => Some (mkFS (fs_sys fs) (store (fs_bytes fs) u b v))
      | None => None
      end
  end.

(** The stream holds a lock of that kind on byte [b]. *)
Definition holds_byte (s : sys) (p fd : Z) (u : uid) (sh : bool) (b : Z) : Prop :=
  exists h, In h (s_holds s) /\ h_pid h = p /\ h_uid h = u /\ lk_handle (h_lock h) = fd
    /\ lk_shared (h_lock h) = sh /\ in_range (lk_start (h_lock h)) (lk_end (h_lock h)) b.

(** What everybody agrees on: bytes are written only by streams that hold an exclusive lock on
    them; steps of the lock system satisfy [ok]. *)
Definition fair_play (ok : sys -> action -> bool) (fs : fsys) (e : event) : Prop :=
  match e with
  | ESys a => ok (fs_sys fs) a = true
  | EWrite p fd b v => forall u, file_of (fs_sys fs) p fd = Some u -> holds_byte (fs_sys fs) p fd u false b
  end.

(** Executions in which everybody keeps to that. *)
Inductive goes (ok : sys -> action -> bool) : fsys -> list event -> fsys -> Prop :=
| goes_nil fs : goes ok fs [] fs
| goes_cons fs e fs1 l fs2 : fair_play ok fs e -> estep fs e = Some fs1 -> goes ok fs1 l fs2 -> goes ok fs (e :: l) fs2.

(** The lock [h] is there before each event of the execution, and at its end. *)
Inductive held_during (ok : sys -> action -> bool) (h : hold) : fsys -> list event -> fsys -> Prop :=
| hd_nil fs : In h (s_holds (fs_sys fs)) -> held_during ok h fs [] fs
| hd_cons fs e fs1 l fs2 : In h (s_holds (fs_sys fs)) -> fair_play ok fs e -> estep fs e = Some fs1 ->
    held_during ok h fs1 l fs2 -> held_during ok h fs (e :: l) fs2.

(** The value of byte [b] after the writes made through the stream that owns [h]: the last one, or
    the value [v] before. *)
Fixpoint own_writes (h : hold) (b : Z) (l : list event) (v : Z) : Z :=
  match l with
  | [] => v
  | EWrite p fd b' v' :: r =>
      own_writes h b r (if (p =? h_pid h) && (fd =? lk_handle (h_lock h)) && (b' =? b) then v' else v)
  | ESys _ :: r => own_writes h b r v
  end.

Definition start (files : uid -> Z -> Z) : fsys := mkFS init_sys files.
