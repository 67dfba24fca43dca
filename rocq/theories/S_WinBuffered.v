(** The calls a program makes on a buffered stream, on either platform: C98. *)
From Coq Require Import ZArith List Bool.
From Verif Require Import M_Base S_Bytes S_Raw S_Buffered.
Import ListNotations.
Open Scope Z_scope.

Inductive bcall : Type :=
| Call (op : bop)
| CReadline (limit : Z)
| CReadinto (n : Z)           (* a buffer of n bytes *)
| CReadinto1 (n : Z).

Definition no_truncation (calls : list bcall) : Prop := forall s, ~ In (Call (BoTruncate s)) calls.
