(** Vocabulary of C105. *)
From Coq Require Import List Bool Arith.
From Verif Require Import M_Mutexed.
Import ListNotations.

Definition idle_all (l : list party) : Prop := Forall (fun a => pa_todo a = []) l.
(** Nobody can go on, and somebody has not finished. *)
Definition stuck (l : list party) : Prop := (forall p, move p l = None) /\ ~ idle_all l.
(** Users about to begin their work. *)
Definition starting (l : list party) : Prop := Forall (fun a => pa_stage a = Before) l.
(** Users that share a mutex hold it during all of a piece of work ("with stream.mutex:"). *)
Definition shared_mutexes_guarded (l : list party) : Prop :=
  forall p q a b, p <> q -> nth_error l p = Some a -> nth_error l q = Some b -> pa_mutex a = pa_mutex b -> Forall (fun s => se_guard s = true) (pa_todo a).
(** No lock_file() waits for ever. *)
Definition all_time_out (l : list party) : Prop := Forall (fun a => Forall (fun s => se_timeout s = true) (pa_todo a)) l.
(** At most this number of steps is left. *)
Definition work_in (s : section) : nat := 4 + se_calls s.
Definition work_left (l : list party) : nat := list_sum (map (fun a => list_sum (map work_in (pa_todo a))) l).
