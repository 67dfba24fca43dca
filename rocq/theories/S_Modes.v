(** Specification of mode strings, written from the documentation
    (rsfile_factories.py:11-205, docstring of rsopen) and not from the parser. *)
From Coq Require Import List Bool Ascii.
Import ListNotations.
Open Scope char_scope.

(** What a mode asks for. *)
Record wish : Type := mkWish {
  w_read : bool; w_write : bool; w_append : bool;
  w_must_create : bool; w_must_not_create : bool;
  w_sync : bool; w_inherit : bool; w_erase : bool; w_binary : bool }.

(** Legal standard modes: distinct characters among "xarw+bt" (and U before
    Python 3.11), exactly one of x / (r or U) / w / a, U is read-only, not both
    b and t.  ("r" and "U" together count as one reading request.) *)
Definition std_ok (py_u : bool) (m : list ascii) : Prop :=
  NoDup m
  /\ (forall c, In c m -> In c ["x"; "a"; "r"; "w"; "+"; "b"; "t"] \/ (c = "U" /\ py_u = true))
  /\ (In "x" m \/ In "r" m \/ In "U" m \/ In "w" m \/ In "a" m)
  /\ ~ (In "x" m /\ (In "r" m \/ In "U" m))
  /\ ~ (In "x" m /\ In "w" m) /\ ~ (In "x" m /\ In "a" m)
  /\ ~ ((In "r" m \/ In "U" m) /\ In "w" m) /\ ~ ((In "r" m \/ In "U" m) /\ In "a" m)
  /\ ~ (In "w" m /\ In "a" m)
  /\ ~ (In "U" m /\ In "+" m)
  /\ ~ (In "b" m /\ In "t" m).

(** Legal advanced modes. *)
Definition adv_ok (m : list ascii) : Prop :=
  NoDup m
  /\ (forall c, In c m -> In c ["R"; "A"; "W"; "+"; "-"; "C"; "N"; "S"; "I"; "E"; "B"; "T"])
  /\ (In "R" m \/ In "W" m \/ In "A" m)
  /\ ~ ((In "C" m \/ In "-" m) /\ (In "N" m \/ In "+" m))
  /\ (In "E" m -> In "W" m \/ In "A" m \/ In "C" m \/ In "-" m)
  /\ ~ (In "B" m /\ In "T" m).

(** [b] says whether [P]. *)
Definition says (b : bool) (P : Prop) : Prop := b = true <-> P.

Definition std_means (m : list ascii) (w : wish) : Prop :=
  says (w_read w) (In "r" m \/ In "U" m \/ In "+" m)
  /\ says (w_write w) (In "x" m \/ In "w" m \/ In "a" m \/ In "+" m)
  /\ says (w_append w) (In "a" m)
  /\ says (w_must_create w) (In "x" m)
  /\ says (w_must_not_create w) (In "r" m \/ In "U" m)
  /\ w_sync w = false /\ w_inherit w = false
  /\ says (w_erase w) (In "w" m)
  /\ says (w_binary w) (In "b" m).

Definition adv_means (m : list ascii) (w : wish) : Prop :=
  says (w_read w) (In "R" m)
  /\ says (w_write w) (In "W" m \/ In "A" m)
  /\ says (w_append w) (In "A" m)
  /\ says (w_must_create w) (In "C" m \/ In "-" m)
  /\ says (w_must_not_create w) (In "N" m \/ In "+" m)
  /\ says (w_sync w) (In "S" m)
  /\ says (w_inherit w) (In "I" m)
  /\ says (w_erase w) (In "E" m /\ ~ (In "C" m \/ In "-" m))
  /\ says (w_binary w) (In "B" m).

(** The documented equivalence table (rsfile_factories.py:190-203): same
    characters as the standard mode on the left (up to order, and whatever the
    b/t suffix), same as the advanced mode on the right. *)
Definition same_chars (m l : list ascii) : Prop := NoDup m /\ (forall c, In c m <-> In c l).
Definition equivalence_table : list (list ascii * list ascii) :=
  [ (["r"], ["R"; "N"]); (["r"; "+"], ["R"; "W"; "N"]);
    (["w"], ["W"; "E"]); (["w"; "+"], ["R"; "W"; "E"]);
    (["a"], ["A"]); (["a"; "+"], ["R"; "A"]);
    (["x"], ["W"; "C"]); (["x"; "+"], ["R"; "W"; "C"]) ].
Definition suffixes : list (list ascii * list ascii) :=
  [ ([], []); (["b"], ["B"]); (["t"], ["T"]) ].
