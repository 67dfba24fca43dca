(** Vocabulary for interrupted reads. *)
From Coq Require Import ZArith List Bool.
From Verif Require Import M_Base M_Registry M_World M_Raw M_Buffered M_IntWrite M_IntRead S_Bytes.
Import ListNotations.
Open Scope Z_scope.

(** [l] is what is left of [c] when some of its bytes are left out. *)
Inductive left_of {A} : list A -> list A -> Prop :=
| LO_nil : left_of [] []
| LO_keep : forall x l c, left_of l c -> left_of (x :: l) (x :: c)
| LO_drop : forall x l c, left_of l c -> left_of l (x :: c).

(** What the calls of read() and read1() that returned have handed over, in order. *)
Definition handed (r : rcall * res (option (list Z))) : list Z :=
  match r with
  | (IPeek _, _) => []
  | (_, Ok (Some d)) => d
  | _ => []
  end.
Definition all_handed (log : list (rcall * res (option (list Z)))) : list Z := flat_map handed log.

(** Expected: nothing is lost.  What the calls handed over is a first part of the file. *)
Definition first_part (d c : list Z) : Prop := exists t, c = d ++ t.
