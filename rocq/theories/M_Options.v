(** Model of the process-wide options, rsfile_registries.py:6-62, and of their use by new streams,
    rsfileio_abstract.py:86-87.  Dictionaries are mutable objects: they live in a heap, so that giving out the
    dictionary itself instead of a copy would be visible.  No proofs here. *)
From Coq Require Import ZArith String List Bool.
From Verif Require Import M_Base.
Import ListNotations.
Open Scope string_scope.

(** Values of options: None, a number (in some fixed unit), or anything else (nothing is checked). *)
Inductive oval : Type := VNone | VNum (n : Z) | VOther (tag : Z).
(** A dict, in insertion order. *)
Definition dict : Type := list (string * oval).

(** d[k] *)
Fixpoint dget (d : dict) (k : string) : option oval :=
  match d with
  | [] => None
  | (k', v) :: r => if String.eqb k' k then Some v else dget r k
  end.
(** d[k] = v *)
Fixpoint dset (d : dict) (k : string) (v : oval) : dict :=
  match d with
  | [] => [(k, v)]
  | (k', v') :: r => if String.eqb k' k then (k', v) :: r else (k', v') :: dset r k v
  end.
(** del d[k] *)
Fixpoint ddel (d : dict) (k : string) : dict :=
  match d with
  | [] => []
  | (k', v') :: r => if String.eqb k' k then r else (k', v') :: ddel r k
  end.
(** d.update(other) *)
Definition dupdate (d other : dict) : dict := fold_left (fun d kv => dset d (fst kv) (snd kv)) other d.

Definition enforced_key : string := "enforced_locking_timeout_value".
Definition spinlock_key : string := "default_spinlock_delay".

(** The heap of dictionaries (the one at address 0 is _default_rsfile_options), and the two attributes of the
    streams created so far. *)
Record ostate : Type := mkOs { h_dicts : list dict; h_streams : list (oval * oval) }.

(** rsfile_registries.py:8-16 (0.1 s is 100 in milliseconds) *)
Definition initial_options : ostate := mkOs [[(enforced_key, VNone); (spinlock_key, VNum 100)]] [].

Definition deref (s : ostate) (a : nat) : dict := nth a (h_dicts s) [].
Definition assign (s : ostate) (a : nat) (d : dict) : ostate := mkOs (nth_update (h_dicts s) a d) (h_streams s).

(** set_rsfile_options, given keyword arguments, rsfile_registries.py:19-46 *)
Definition set_rsfile_options (options : dict) (s : ostate) : res unit * ostate :=
  let all_options := map fst (deref s 0) in
  if forallb (fun k => existsb (String.eqb k) all_options) (map fst options)
  then (Ok tt, assign s 0 (dupdate (deref s 0) options))
  else (Err EValue, s).

(** get_rsfile_options(), rsfile_registries.py:58-62: the address of the dictionary returned. *)
Definition get_rsfile_options (s : ostate) : res nat * ostate :=
  (Ok (length (h_dicts s)), mkOs (h_dicts s ++ [deref s 0]) (h_streams s)).

(** The beginning of RSFileIO.__init__, rsfileio_abstract.py:86-87 *)
Definition create_stream (s : ostate) : res nat * ostate :=
  match dget (deref s 0) enforced_key, dget (deref s 0) spinlock_key with
  | Some e, Some d => (Ok (length (h_streams s)), mkOs (h_dicts s) (h_streams s ++ [(e, d)]))
  | _, _ => (Err EKey, s)
  end.

(** What a program may do: call these functions, and modify the dictionaries it was given (it was not given the
    one at address 0). *)
Inductive oact : Type :=
| OSet (options : dict) | OGet | OCreate
| OStore (a : nat) (k : string) (v : oval) | ODelete (a : nat) (k : string).
Definition orun1 (s : ostate) (x : oact) : ostate :=
  match x with
  | OSet o => snd (set_rsfile_options o s)
  | OGet => snd (get_rsfile_options s)
  | OCreate => snd (create_stream s)
  | OStore a k v => assign s a (dset (deref s a) k v)
  | ODelete a k => assign s a (ddel (deref s a) k)
  end.
Definition orun (s : ostate) (l : list oact) : ostate := fold_left orun1 l s.
