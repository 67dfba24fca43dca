(** Specification vocabulary: what designates the file given to rsopen, and what the
    descriptor of a stream allows. *)
From Coq Require Import ZArith List Bool Ascii.
From Verif Require Import M_Base M_Modes M_World M_Raw M_Open S_Modes S_Open.
Import ListNotations.
Open Scope Z_scope.

(** The first argument of rsopen says something. *)
Definition named (a : openargs) : bool :=
  match a_name a with NPath (_ :: _) | NInt _ => true | _ => false end.
Definition count (b : bool) : Z := if b then 1 else 0.
(** Exactly one designation; an opener is given the name and does the rest. *)
Definition one_designation (a : openargs) : Prop :=
  match a_opener a with
  | None => count (named a) + count (is_some (a_fileno a)) + count (is_some (a_handle a)) = 1
  | Some _ => a_fileno a = None /\ a_handle a = None
  end.

(** The rights of descriptor [o] are those wished; kept by exec iff wished. *)
Record fd_rights (wi : wish) (o : ofd) : Prop := mkRights {
  gr_rd : w_read wi = true -> o_rd o = true;
  gr_nord : w_read wi = false -> w_write wi = true -> o_rd o = false;
  gr_wr : o_wr o = w_write wi;
  gr_app : o_app o = w_append wi;
  gr_sync : o_sync o = w_sync wi;
  gr_inh : o_inh o = w_inherit wi }.
