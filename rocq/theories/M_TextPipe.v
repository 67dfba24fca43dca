(** Two text streams (RSTextIOWrapper, rsfile_streams.py:77-114) over the buffered streams at the ends of a pipe.  The
    calls follow one another.  No proofs here. *)
From Coq Require Import ZArith List Bool.
From Verif Require Import M_Base M_Registry M_Kernel M_World M_Raw M_Buffered M_Text S_TextPipe.
Import ListNotations.
Open Scope Z_scope.

(** The writer, the reader, and the world that they share. *)
Record tpipe : Type := mkTPipe { tp_out : tstate; tp_in : tstate; tp_w : world }.
Definition in_world (t : tstate) (w : world) : tstate := set_b t (set_world (t_b t) w).

(** write and flush, pyio:2197-2219 and 2172-2174; readline and __next__, pyio:2543-2642, as in M_Text. *)
Definition run_lcall (cw cr : tconf) (c : lcall) (P : tpipe) : lout * tpipe :=
  let out (t : tstate) := mkTPipe t (tp_in P) (b_w (t_b t)) in
  let inp (t : tstate) := mkTPipe (tp_out P) t (b_w (t_b t)) in
  match c with
  | LcWrite s => let '(r, t) := t_write cw s (in_world (tp_out P) (tp_w P)) in (match r with Ok n => LoCount n | Err e => LoErr e end, out t)
  | LcFlush => let '(r, t) := t_flush cw (in_world (tp_out P) (tp_w P)) in (match r with Ok _ => LoDone | Err e => LoErr e end, out t)
  | LcLine false => let '(r, t) := t_readline cr None (in_world (tp_in P) (tp_w P)) in (match r with Ok s => LoLine s | Err e => LoErr e end, inp t)
  | LcLine true =>
      let '(r, t) := t_next cr (in_world (tp_in P) (tp_w P)) in
      (match r with Ok (Some s) => LoLine s | Ok None => LoStop | Err e => LoErr e end, inp t)
  end.
Fixpoint run_lcalls (cw cr : tconf) (cs : list lcall) (P : tpipe) : list lout * tpipe :=
  match cs with
  | [] => ([], P)
  | c :: cs => let '(o, P1) := run_lcall cw cr c P in let '(os, P2) := run_lcalls cw cr cs P1 in (o :: os, P2)
  end.
(** Text streams just made over the buffered streams at the ends, __init__: pyio:2005-2072. *)
Definition text_over (out inp : bstate) (w : world) : tpipe := mkTPipe (t_fresh out) (t_fresh inp) w.
