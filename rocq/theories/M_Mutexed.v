(** Model of lock_file() through RSThreadSafeWrapper when the mutex of the wrapper has several users: the processes that inherited the
    stream through fork() (rsfile_factories.py:76-81, 236-238: a multiprocessing.RLock for inheritable streams), or several streams
    that were given one mutex.  Only who holds the mutex and who has locked what is kept.
    No proofs here. *)
From Coq Require Import ZArith List Bool Arith.
From Verif Require Import M_Base M_Registry.
Import ListNotations.
Open Scope Z_scope.

(** The bytes that a call of lock_file() asks for, and how. *)
Record want : Type := mkWant { wt_file : Z; wt_shared : bool; wt_start : Z; wt_end : option Z }.
(** rsfile_registries.py:118-136 and fcntl(2) *)
Definition in_the_way (a b : want) : bool :=
  (wt_file a =? wt_file b) && areas_overlap (wt_start a) (wt_end a) (wt_start b) (wt_end b) && negb (wt_shared a && wt_shared b).

(** What a user does: a piece of work with [se_calls] calls of the stream, under a lock on bytes of the file if [se_want], in
    "with stream.lock_file(...):" if [se_ctx], else with lock_file() and unlock_file(); the whole in "with stream.mutex:" if [se_guard]. *)
Record section : Type := mkSec { se_want : option want; se_timeout : bool; se_calls : nat; se_ctx : bool; se_guard : bool }.
Inductive stage : Type := Before | Entered | Waiting | Inside (n : nat).
(** A user of the mutex number [pa_mutex], at a stage of the first section of [pa_todo]. *)
Record party : Type := mkParty { pa_mutex : nat; pa_stage : stage; pa_todo : list section }.

(** The mutex is held in "with stream.mutex:", and during a call (_secure_call, rsfile_streams.py:170-172): the only one that lasts is the
    lock_file() that waits. *)
Definition owns (a : party) : bool :=
  match pa_todo a with
  | [] => false
  | s :: _ => match pa_stage a with Before => false | Waiting => true | _ => se_guard s end
  end.
Definition holding (a : party) : option want :=
  match pa_todo a, pa_stage a with s :: _, Inside _ => se_want s | _, _ => None end.
(** For the user [p]: nobody else has the mutex; nobody else's lock is in the way. *)
Definition others_all (p : nat) (ok : party -> bool) (l : list party) : bool :=
  forallb (fun x => (fst x =? p)%nat || ok (snd x)) (combine (seq 0 (length l)) l).
Definition available (p m : nat) (l : list party) : bool := others_all p (fun a => negb ((pa_mutex a =? m)%nat && owns a)) l.
Definition grantable (p : nat) (w : want) (l : list party) : bool :=
  others_all p (fun a => match holding a with Some v => negb (in_the_way v w) | None => true end) l.

Definition finish (a : party) : party := mkParty (pa_mutex a) Before (tl (pa_todo a)).
Definition at_stage (a : party) (st : stage) : party := mkParty (pa_mutex a) st (pa_todo a).
(** The next step of the user [p], if it can make one. *)
Definition move (p : nat) (l : list party) : option (list party) :=
  match nth_error l p with
  | None => None
  | Some a =>
      match pa_todo a with
      | [] => None
      | s :: _ =>
          let go b := Some (nth_update l p b) in
          let with_mutex r := if available p (pa_mutex a) l then r else None in
          (* lock_file(), rsfile_streams.py:51-53, 169-171, rsfileio_abstract.py:593-636 *)
          let call_lock :=
            match se_want s with
            | None => go (at_stage a (Inside (se_calls s)))
            | Some w => with_mutex (if grantable p w l then go (at_stage a (Inside (se_calls s))) else go (at_stage a Waiting))
            end in
          match pa_stage a with
          | Before => if se_guard s then with_mutex (go (at_stage a Entered)) else call_lock
          | Entered => call_lock
          | Waiting =>
              match se_want s with
              | None => go (at_stage a (Inside (se_calls s))) (* does not occur *)
              | Some w =>
                  if grantable p w l then go (at_stage a (Inside (se_calls s)))
                  else if se_timeout s then go (finish a) (* LockingException, rsfileio_abstract.py:569-590 *)
                  else None
              end
          | Inside (S n) => with_mutex (go (at_stage a (Inside n)))
          | Inside O =>
              (* unlock_file(), rsfile_streams.py:55-57; the context manager calls that of the raw stream, rsfileio_abstract.py:527-532 *)
              match se_want s with
              | Some _ => if se_ctx s then go (finish a) else with_mutex (go (finish a))
              | None => go (finish a)
              end
          end
      end
  end.
Fixpoint moves (ps : list nat) (l : list party) : option (list party) :=
  match ps with [] => Some l | p :: r => match move p l with Some l' => moves r l' | None => None end end.
