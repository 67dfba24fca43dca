(** Specification vocabulary for newlines: which line endings a text has, and what universal newline translation makes
    of it. *)
From Coq Require Import ZArith List.
Import ListNotations.
Open Scope Z_scope.

(** The text cut into pieces, each of which is "\r\n", "\r" (not followed by "\n"), "\n" or another character. *)
Inductive piece : Type := PCrLf | PCr | PLf | PChar (c : Z).
Definition piece_eq_dec (p q : piece) : {p = q} + {p <> q}.
Proof. decide equality; apply Z.eq_dec. Defined.
Definition spelling (p : piece) : list Z :=
  match p with PCrLf => [13; 10] | PCr => [13] | PLf => [10] | PChar c => [c] end.
Definition translated (p : piece) : list Z :=
  match p with PChar c => [c] | _ => [10] end.
Definition ordinary (p : piece) : Prop := match p with PChar c => c <> 13 /\ c <> 10 | _ => True end.
Inductive pieces : list Z -> list piece -> Prop :=
| ps_nil : pieces [] []
| ps_cons : forall p s ps, ordinary p -> (p = PCr -> forall t, s <> 10 :: t) -> pieces s ps ->
    pieces (spelling p ++ s) (p :: ps).
