(** Specification vocabulary for readline() and readinto() on buffered streams. *)
From Coq Require Import ZArith List Bool.
From Verif Require Import M_Base S_Bytes.
Import ListNotations.
Open Scope Z_scope.

(** [l] is the line of the byte array [c] that starts at [p]: up to the first newline, included; up to the end if there is no newline. *)
Definition line_at (c : list Z) (p : Z) (l : list Z) : Prop :=
  slice_at c p l /\ (forall j, 0 <= j < len l - 1 -> byte_at l j <> 10)
  /\ (rest_from c p l \/ (l <> [] /\ byte_at l (len l - 1) = 10)).

(** Successive lines, none of them empty. *)
Inductive lines_from (c : list Z) : Z -> list (list Z) -> Prop :=
| LF_nil : forall p, lines_from c p []
| LF_cons : forall p l ls, line_at c p l -> l <> [] -> lines_from c (p + len l) ls -> lines_from c p (l :: ls).

(** [d]: what readline(size) returns when the line is [l]. *)
Definition line_got (size : Z) (l d : list Z) : Prop :=
  exists r, l = d ++ r /\ (size < 0 -> r = []) /\ (0 <= size -> Z.min size (len l) <= len d /\ len d <= Z.max 0 (2 * size - 1)).

(** [ls]: what readlines(hint) returns at [p]: successive lines; with a positive hint, it
    stops with the line that reaches [hint] bytes. *)
Definition lines_got (hint : Z) (c : list Z) (p : Z) (ls : list (list Z)) : Prop :=
  lines_from c p ls
  /\ (hint <= 0 -> len c <= p + len (concat ls))
  /\ (0 < hint -> (len c <= p + len (concat ls) \/ hint <= len (concat ls)) /\ (forall l r, ls = r ++ [l] -> len (concat r) < hint)).
