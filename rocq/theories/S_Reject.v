(** Specification vocabulary: mistakes in the arguments of rsopen. *)
From Coq Require Import ZArith List Bool Ascii.
From Verif Require Import M_Base M_Modes M_World M_Raw M_Open.
Import ListNotations.
Open Scope Z_scope.

Definition wants_binary (m : list ascii) : Prop := In "b"%char m \/ In "B"%char m.
Definition wants_erasure (m : list ascii) : Prop := In "w"%char m \/ In "E"%char m.

(** The timeout is neither None nor a number >= 0. *)
Definition bad_timeout (a : openargs) : Prop :=
  a_timeout a = PBad \/ exists t, a_timeout a = PInt t /\ t < 0.

(** Mistakes that can be seen in the arguments alone, but that rsopen looks at once the
    file is open: the timeout of the lock, text without a buffer, and what the text
    layer refuses (encoding, newline). *)
Definition late_mistake (a : openargs) : Prop :=
  (a_locking a = true /\ bad_timeout a)
  \/ (~ wants_binary (a_mode a) /\ (a_buffering a = Some 0 \/ a_text_error a <> None)).
