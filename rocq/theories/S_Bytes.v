(** Byte arrays, stated pointwise: the reference against which file contents are
    judged.  Nothing here mentions the model of the code. *)
From Coq Require Import ZArith List Bool.
From Verif Require Import M_Base.
Import ListNotations.
Open Scope Z_scope.

Definition len {A} (l : list A) : Z := Z.of_nat (length l).
(** The byte at index i; beyond the end (and before the beginning) it reads as 0. *)
Definition byte_at (l : list Z) (i : Z) : Z :=
  if i <? 0 then 0 else nth (Z.to_nat i) l 0.

(** [d] is what the array [c] holds from index [p] on. *)
Definition slice_at (c : list Z) (p : Z) (d : list Z) : Prop :=
  (d = [] \/ p + len d <= len c)
  /\ forall i, 0 <= i < len d -> byte_at d i = byte_at c (p + i).

(** [c'] is [c] once the bytes [b] are stored at index [p]: everything
    else is kept, and a gap beyond the old end is filled with zeros. *)
Definition stored_at (c : list Z) (p : Z) (b : list Z) (c' : list Z) : Prop :=
  (b = [] -> c' = c)
  /\ (b <> [] -> len c' = Z.max (len c) (p + len b))
  /\ forall i, 0 <= i < len c' ->
       byte_at c' i = if (p <=? i) && (i <? p + len b) then byte_at b (i - p) else byte_at c i.

(** [c'] is [c] cut or zero-extended to [n] bytes. *)
Definition resized (c : list Z) (n : Z) (c' : list Z) : Prop :=
  len c' = n /\ forall i, 0 <= i < n -> byte_at c' i = byte_at c i.

(** [d] is everything from index [p] to the end of [c]. *)
Definition rest_from (c : list Z) (p : Z) (d : list Z) : Prop :=
  len d = Z.max 0 (len c - p) /\ slice_at c p d.
