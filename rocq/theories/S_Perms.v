(** Specification vocabulary: the permission bits of a new file (C93). *)
From Coq Require Import ZArith Bool.
Open Scope Z_scope.

(** [m]: the twelve permission bits of [perms], without those of the mask. *)
Definition masked (m perms umask : Z) : Prop :=
  forall k, 0 <= k -> Z.testbit m k = (k <? 12) && Z.testbit perms k && negb (Z.testbit umask k).
(** The bits that let somebody execute the file: 0o100, 0o10 and 0o1. *)
Definition exec_bit (k : Z) : Prop := k = 6 \/ k = 3 \/ k = 0.
