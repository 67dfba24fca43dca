(** Specification vocabulary for options: option settings as functions from names to values. *)
From Coq Require Import String List Bool.
From Verif Require Import M_Base M_Options.
Import ListNotations.

Definition known (k : string) : Prop :=
  k = "enforced_locking_timeout_value"%string \/ k = "default_spinlock_delay"%string.

(** The options in force. *)
Definition in_force (s : ostate) (k : string) : option oval := dget (deref s 0) k.

(** The program only modifies dictionaries it was given. *)
Definition honest (x : oact) : Prop :=
  match x with
  | OStore a _ _ => a <> 0 | ODelete a _ => a <> 0
  | OSet o => NoDup (map fst o)            (* keyword arguments *)
  | _ => True
  end.
(** The action modifies the dictionary at address [a]. *)
Definition modifies (a : nat) (x : oact) : Prop :=
  match x with OStore b _ _ => b = a | ODelete b _ => b = a | _ => False end.

(** What an action does to the options in force. *)
Definition after_action (f : string -> option oval) (x : oact) (g : string -> option oval) : Prop :=
  match x with
  | OSet o => (forall k, In k (map fst o) -> known k) /\
                (forall k v, In (k, v) o -> g k = Some v) /\ (forall k, ~ In k (map fst o) -> g k = f k)
              \/ (exists k, In k (map fst o) /\ ~ known k) /\ forall k, g k = f k
  | _ => forall k, g k = f k
  end.
