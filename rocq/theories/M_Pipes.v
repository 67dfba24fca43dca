(** Two buffered streams at the ends of a pipe: a RSBufferedWriter and a RSBufferedReader (rsfile_streams.py:124-143),
    of one process or of two.  The calls follow one another.  No proofs here. *)
From Coq Require Import ZArith List Bool.
From Verif Require Import M_Base M_Registry M_Kernel M_World M_Raw M_Buffered S_Pipes.
Import ListNotations.
Open Scope Z_scope.

(** The writer, the reader, and the world that they share. *)
Record pipe : Type := mkPipe { pp_out : bstate; pp_in : bstate; pp_w : world }.

(** A call of the writer, of the reader. *)
Definition at_writer {A} (m : B A) (P : pipe) : res A * pipe :=
  let '(r, b) := m (set_world (pp_out P) (pp_w P)) in (r, mkPipe b (pp_in P) (b_w b)).
Definition at_reader {A} (m : B A) (P : pipe) : res A * pipe :=
  let '(r, b) := m (set_world (pp_in P) (pp_w P)) in (r, mkPipe (pp_out P) b (b_w b)).

(** The methods, pyio:1249-1303 (writer), 1057-1209 (reader), 524-564 (readline), as in M_Buffered. *)
Definition run_call (c : pcall) (P : pipe) : pout * pipe :=
  let bytes (x : res (list byte) * pipe) := (match fst x with Ok d => PoBytes d | Err e => PoErr e end, snd x) in
  let option_bytes (x : res (option (list byte)) * pipe) :=
    (match fst x with Ok (Some d) => PoBytes d | Ok None => PoNone | Err e => PoErr e end, snd x) in
  match c with
  | PcWrite d => let '(r, P') := at_writer (b_write BWriter d) P in (match r with Ok n => PoCount n | Err e => PoErr e end, P')
  | PcFlush => let '(r, P') := at_writer (b_flush BWriter) P in (match r with Ok _ => PoDone | Err e => PoErr e end, P')
  | PcRead n => option_bytes (at_reader (b_read BReader n) P)
  | PcRead1 n => option_bytes (at_reader (b_read1 BReader n) P)
  | PcPeek n => bytes (at_reader (b_peek BReader n) P)
  | PcReadline size => bytes (at_reader (b_readline BReader size) P)
  | PcReadinto n one => bytes (at_reader (b_readinto BReader n one) P)
  end.
Fixpoint run_calls (cs : list pcall) (P : pipe) : list pout * pipe :=
  match cs with
  | [] => ([], P)
  | c :: cs => let '(o, P1) := run_call c P in let '(os, P2) := run_calls cs P1 in (o :: os, P2)
  end.
