(** Vocabulary of C103: threads that use one stream in append mode, while other processes append to the file at any moment. *)
From Coq Require Import ZArith List Bool.
From Verif Require Import M_Base M_Registry M_World M_Buffered M_Threads S_Bytes S_Raw S_Buffered S_Threads.
Import ListNotations.
Open Scope Z_scope.

(** A thread makes one step (at most one system call), or another process appends to the file. *)
Inductive happening : Type := ByThread (t : nat) | ByOthers (d : list Z).
Definition appended_to (u : uid) (d : list Z) (w : world) : world :=
  match w_inodes w u with Some i => upd_ino w u (mkIno (n_kind i) (n_data i ++ d) true) | None => w end.
Fixpoint log_run (k : bkind) (u : uid) (hs : list happening) (q : pool tcall rout) : option (pool tcall rout) :=
  match hs with
  | [] => Some q
  | ByThread t :: r => match pstep (prog_of k) t q with Some q1 => log_run k u r q1 | None => None end
  | ByOthers d :: r => log_run k u r (mkPool (q_locks q) (set_world (q_st q) (appended_to u d (b_w (q_st q)))) (q_thr q) (q_log q))
  end.
Fixpoint by_others (hs : list happening) : list Z :=
  match hs with [] => [] | ByThread _ :: r => by_others r | ByOthers d :: r => d ++ by_others r end.

(** Any calls but truncate() and close(). *)
Definition log_call (c : tcall) : Prop :=
  match c with TOp (BoTruncate _) | TClose => False | _ => True end.

(** What a call takes of the caller's bytes, according to its result.  A write() that says it would block tells how many;
    one that raises another exception has taken all or nothing. *)
Inductive takes : tcall -> rout -> list Z -> Prop :=
| TK_write : forall d, takes (TOp (BoWrite d)) (OInt (len d)) d
| TK_block : forall d n, 0 <= n <= len d -> takes (TOp (BoWrite d)) (OErr (EBlocking n)) (firstn (Z.to_nat n) d)
| TK_none : forall d e, (forall n, e <> EBlocking n) -> takes (TOp (BoWrite d)) (OErr e) []
| TK_all : forall d e, (forall n, e <> EBlocking n) -> takes (TOp (BoWrite d)) (OErr e) d
| TK_other : forall c r, (forall d, c <> TOp (BoWrite d)) -> takes c r [].
(** The same for the calls of [log], in the order in which they returned. *)
Inductive all_take : list (nat * tcall * rout) -> list Z -> Prop :=
| AT_nil : all_take [] []
| AT_snoc : forall l a t c r x, all_take l a -> takes c r x -> all_take (l ++ [(t, c, r)]) (a ++ x).

(** [m] is made of the bytes of [a] and of those of [b], each in their order. *)
Inductive merges : list Z -> list Z -> list Z -> Prop :=
| MG_nil : merges [] [] []
| MG_left : forall x a b m, merges a b m -> merges (x :: a) b (x :: m)
| MG_right : forall x a b m, merges a b m -> merges a (x :: b) (x :: m).
