(** Vocabulary of C72: several buffered streams of one process on the same file, other
    processes doing the same, everybody locking the whole file around what they do.  The
    machine the program thinks it runs on: one content, one cursor per stream, and a holder. *)
From Coq Require Import ZArith List Bool.
From Verif Require Import M_Base M_Modes M_Registry M_Kernel M_World M_Raw M_Buffered S_Bytes S_Raw S_Locks S_Buffered S_Append.
Import ListNotations.
Open Scope Z_scope.

(** * What happens *)

(** The calls on stream number [j], and what other processes do. *)
Inductive gact : Type :=
| GLock (j : nat) (timeout : parg)     (* s.lock_file(timeout): exclusive if s is writable, else shared *)
| GOp (j : nat) (op : bop)
| GUnlock (j : nat)                    (* s.unlock_file() *)
| GOther (K : klocks)                  (* other processes lock and unlock *)
| GData (d : list Z).                  (* another process rewrites the file *)
Inductive gout : Type :=
| GGot | GReleased | GError (e : exn) | GRes (r : rout) | GSilent.

Definition set_at {A} (f : nat -> A) (j : nat) (x : A) : nat -> A :=
  fun l => if Nat.eqb l j then x else f l.

(** * The abstract machine: content, cursors, who holds the lock *)
Definition astate : Type := list Z * (nat -> Z) * (nat -> bool).
Definition rights_of (k : bkind) : bacc :=
  match k with BReader => mkBacc true false | BWriter => mkBacc false true | BRandom => mkBacc true true end.

(** A call on a stream that appends or not; the machine of C68 for those that do ([lag] is what
    tell() is wrong by). *)
Inductive opstep (a : bacc) : bool -> list Z * Z -> bop -> rout -> list Z * Z -> Prop :=
| OS_plain : forall s op out s', bastep a s op out s' -> opstep a false s op out s'
| OS_append : forall c p lag op out c' p' lag', apstep a (c, p, lag) op out (c', p', lag') ->
    opstep a true (c, p) op out (c', p').

Inductive sstep (kind : nat -> option bkind) (app : nat -> bool) : astate -> gact -> gout -> astate -> Prop :=
(* writable streams: nobody else holds it *)
| SS_lock : forall c ps held j t,
    (forall l k, kind l = Some k -> held l = true -> k = BReader /\ kind j = Some BReader /\ l <> j) ->
    sstep kind app (c, ps, held) (GLock j t) GGot (c, ps, set_at held j true)
| SS_refused : forall s j t e, sstep kind app s (GLock j t) (GError e) s
(* whoever holds the lock works on the content as if alone *)
| SS_op : forall c ps held j k op out c' p', kind j = Some k -> held j = true ->
    opstep (rights_of k) (app j) (c, ps j) op out (c', p') ->
    sstep kind app (c, ps, held) (GOp j op) (GRes out) (c', set_at ps j p', held)
| SS_unlock : forall c ps held j, held j = true ->
    sstep kind app (c, ps, held) (GUnlock j) GReleased (c, ps, set_at held j false)
| SS_other : forall s K, sstep kind app s (GOther K) GSilent s
(* others change the file while nobody here holds the lock *)
| SS_data : forall c ps held d, (forall l k, kind l = Some k -> held l = false) ->
    sstep kind app (c, ps, held) (GData d) GSilent (d, ps, held).
Inductive sruns (kind : nat -> option bkind) (app : nat -> bool) : astate -> list gact -> list gout -> astate -> Prop :=
| SR_nil : forall s, sruns kind app s [] [] s
| SR_cons : forall s a out s1 acts outs s2,
    sstep kind app s a out s1 -> sruns kind app s1 acts outs s2 -> sruns kind app s (a :: acts) (out :: outs) s2.

(** * What is asked of the program and of the other processes *)

Definition held_after (held : nat -> bool) (a : gact) (out : gout) : nat -> bool :=
  match a, out with
  | GLock j _, GGot => set_at held j true
  | GUnlock j, GReleased => set_at held j false
  | _, _ => held
  end.
(** Nothing was read since the last write or successful seek (see [disciplined]). *)
Definition clean_next (clean : bool) (op : bop) (out : rout) : bool :=
  match op, out with
  | BoRead _, _ | BoRead1 _, _ | BoPeek _, _ => false
  | BoWrite _, _ | BoSeek _ _, OInt _ => true
  | _, _ => clean
  end.
Definition clean_after (cl : nat -> bool) (a : gact) (out : gout) : nat -> bool :=
  match a, out with
  | GLock j _, GGot => set_at cl j true
  | GOp j op, GRes out => set_at cl j (clean_next (cl j) op out)
  | _, _ => cl
  end.

(** The kernel's rule: two processes share a byte of a file only if both locks are shared. *)
Definition lawful (K : klocks) : Prop := forall s1 s2 b, In s1 K -> In s2 K ->
  k_pid s1 <> k_pid s2 -> k_ino s1 = k_ino s2 ->
  in_range (k_lo s1) (k_hi s1) b -> in_range (k_lo s2) (k_hi s2) b ->
  k_shared s1 = true /\ k_shared s2 = true.
(** Some other process than [pid] has an exclusive lock on the whole file. *)
Definition other_excludes (K : klocks) (pid : Z) (u : uid) : Prop :=
  exists p, p <> pid /\ forall b, 0 <= b ->
    exists s, In s K /\ k_pid s = p /\ k_ino s = u /\ k_shared s = false /\ in_range (k_lo s) (k_hi s) b.

Definition permitted (kind : nat -> option bkind) (u : uid) (held cl : nat -> bool) (a : gact) (out : gout) (w : world) : Prop :=
  match a with
  | GLock j _ => kind j <> None /\ out <> GError EHang   (* the call returns without waiting *)
  | GOp j op => kind j <> None /\ held j = true
      /\ (kind j = Some BRandom -> match out with GRes out => disciplined (cl j) [(op, out)] | _ => True end)
  | GUnlock j => kind j <> None /\ held j = true
  | GOther K => lawful K /\ filter (fun s => k_pid s =? w_pid w) K = filter (fun s => k_pid s =? w_pid w) (w_kern w)
  | GData _ => other_excludes (w_kern w) (w_pid w) u
  end.
