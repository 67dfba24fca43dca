(** Vocabulary for interrupted writes. *)
From Coq Require Import ZArith List Bool.
From Verif Require Import M_Base M_Registry M_World M_Raw M_Buffered M_IntWrite S_Bytes.
Import ListNotations.
Open Scope Z_scope.

(** What a call takes of the caller's bytes, according to its outcome: a write() that says it would
    block tells how many; one that raises anything else has taken all or nothing. *)
Inductive took : icall -> res Z -> list Z -> Prop :=
| TO_write : forall d, took (IWrite d) (Ok (len d)) d
| TO_block : forall d n, 0 <= n <= len d -> took (IWrite d) (Err (EBlocking n)) (firstn (Z.to_nat n) d)
| TO_none : forall d e, (forall n, e <> EBlocking n) -> took (IWrite d) (Err e) []
| TO_all : forall d e, (forall n, e <> EBlocking n) -> took (IWrite d) (Err e) d
| TO_flush : forall r, took IFlush r [].
Inductive all_took : list (icall * res Z) -> list Z -> Prop :=
| AK_nil : all_took [] []
| AK_cons : forall c r x l a, took c r x -> all_took l a -> all_took ((c, r) :: l) (x ++ a).

(** [s] is [l] with at most [k] times a piece of it repeated at once. *)
Inductive repeats : nat -> list Z -> list Z -> Prop :=
| RP_same : forall k l, repeats k l l
| RP_again : forall k l x y z, repeats k l (x ++ y ++ z) -> repeats (S k) l (x ++ y ++ y ++ z).

(** The calls that the handler interrupted. *)
Definition interrupted {A} (r : res A) : bool := match r with Err (EUser 0) => true | _ => false end.
Definition interruptions (log : list (icall * res Z)) : nat := length (filter (fun c => interrupted (snd c)) log).
