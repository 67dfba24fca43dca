(** Specification vocabulary for locks, independent of the implementation:
    a lock request covers a set of bytes. *)
From Coq Require Import ZArith.
Open Scope Z_scope.

(** Byte [b] belongs to the area that starts at [start] and has [length] bytes;
    length None or 0 means "to infinity". *)
Definition covers (start : Z) (length : option Z) (b : Z) : Prop :=
  start <= b /\ match length with
                | None => True
                | Some l => l = 0 \/ b < start + l
                end.

(** Byte [b] belongs to [lo, hi), hi = None meaning infinity. *)
Definition in_range (lo : Z) (hi : option Z) (b : Z) : Prop :=
  lo <= b /\ match hi with None => True | Some h => b < h end.

(** Two ranges share a byte. *)
Definition share_byte (lo1 : Z) (hi1 : option Z) (lo2 : Z) (hi2 : option Z) : Prop :=
  exists b, in_range lo1 hi1 b /\ in_range lo2 hi2 b.
