(** Model of RSThreadSafeWrapper, rsfile_streams.py:150-203, used by any number of threads.  One step is one thing
    another thread can see: a look-up in the instance dictionary, the execution of __getattr__, taking the mutex,
    entering or leaving a method of the wrapped stream.  The stream itself is not modelled: only which threads are
    inside one of its methods.  No proofs here. *)
From Coq Require Import Ascii String List Bool Arith.
From Verif Require Import M_Base.
Import ListNotations.

(** What an attribute look-up on the wrapper gives: a bound method of the wrapped stream itself, or the
    _method_proxy of line 181 that goes through _secure_call. *)
Inductive callee : Type := Direct (name : string) | Proxy (name : string).

(** Where a thread is. *)
Inductive tpos : Type :=
| TIdle
| TGetattr (name : string)                  (* the instance has no such attribute: about to run __getattr__ *)
| TWaitMutex (name : string)                (* in _secure_call, before "with self.mutex" has succeeded *)
| TInside (name : string) (locked : bool).  (* in a method of the wrapped stream *)

(** [s_cached]: attributes set on the wrapper by line 184; [s_got]: what look-ups have given so far (threads may keep
    and share them); [s_owner]: thread holding the mutex. *)
Record wstate : Type := mkWs {
  s_cached : list string; s_got : list callee; s_owner : option nat; s_pos : nat -> tpos }.

Definition w_init : wstate := mkWs [] [] None (fun _ => TIdle).

Definition mem (n : string) (l : list string) : bool := existsb (String.eqb n) l.
Definition private (n : string) : bool :=
  match n with String c _ => Ascii.eqb c "_"%char | EmptyString => false end.
Definition callee_eqb (a b : callee) : bool :=
  match a, b with
  | Direct n, Direct m => String.eqb n m
  | Proxy n, Proxy m => String.eqb n m
  | _, _ => false
  end.
Definition set_tpos (s : wstate) (t : nat) (p : tpos) : wstate :=
  mkWs (s_cached s) (s_got s) (s_owner s) (fun u => if u =? t then p else s_pos s u).
Definition got (s : wstate) (c : callee) : wstate := mkWs (s_cached s) (c :: s_got s) (s_owner s) (s_pos s).
Definition cache (s : wstate) (n : string) : wstate := mkWs (n :: s_cached s) (s_got s) (s_owner s) (s_pos s).
Definition set_owner (s : wstate) (o : option nat) : wstate := mkWs (s_cached s) (s_got s) o (s_pos s).

Inductive wact : Type :=
| ALookup (name : string)     (* wrapper.name *)
| AGetattr
| AIter                       (* iter(wrapper) *)
| ACall (c : callee)          (* call something that a look-up gave *)
| AAcquire
| AReturn (raised : bool).    (* the method of the wrapped stream returns or raises *)

(** One step of thread [t]; None: not possible now.  [methods]: which attributes of the wrapped stream are callable
    (all other names are values, read and returned at once). *)
Definition wstep (methods : string -> bool) (t : nat) (a : wact) (s : wstate) : option wstate :=
  match s_pos s t, a with
  (* the instance dictionary comes before __getattr__ *)
  | TIdle, ALookup n =>
      if mem n (s_cached s) then Some (got s (Proxy n)) else Some (set_tpos s t (TGetattr n))
  (* __getattr__, lines 173-187: the attribute returned is [attr], not the proxy *)
  | TGetattr n, AGetattr =>
      let s1 := if negb (private n) && methods n then cache s n else s in
      let s2 := if methods n then got s1 (Direct n) else s1 in
      Some (set_tpos s2 t TIdle)
  (* __iter__, lines 189-190: iter(wrapped_stream) is the stream; its __next__ is called afterwards *)
  | TIdle, AIter => Some (got s (Direct "__next__"))
  | TIdle, ACall c =>
      if existsb (callee_eqb c) (s_got s) then
        match c with
        | Direct n => Some (set_tpos s t (TInside n false))
        | Proxy n => Some (set_tpos s t (TWaitMutex n))
        end
      else None
  (* with self.mutex, line 170 *)
  | TWaitMutex n, AAcquire =>
      match s_owner s with
      | None => Some (set_tpos (set_owner s (Some t)) t (TInside n true))
      | Some _ => None
      end
  (* leaving the method, and the with-block if any, normally or by an exception *)
  | TInside n locked, AReturn _ =>
      Some (set_tpos (if locked then set_owner s None else s) t TIdle)
  | _, _ => None
  end.

Fixpoint wrun (methods : string -> bool) (l : list (nat * wact)) (s : wstate) : option wstate :=
  match l with
  | [] => Some s
  | (t, a) :: r => match wstep methods t a s with None => None | Some s' => wrun methods r s' end
  end.
