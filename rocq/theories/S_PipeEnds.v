(** Specification vocabulary: two buffered streams at the ends of a pipe, and the bytes on the way (C94). *)
From Coq Require Import ZArith List Bool.
From Verif Require Import M_Base M_Registry M_Kernel M_World M_Raw M_Buffered S_Bytes S_Pipes M_Pipes.
Import ListNotations.
Open Scope Z_scope.

(** What is in file [u]. *)
Definition inside (w : world) (u : uid) : list byte := match w_inodes w u with Some i => n_data i | None => [] end.

(** [f] is an open end of the pipe [u]. *)
Record pend (f : rawio) (w : world) (u : uid) : Prop := mkPend {
  pe_open : f_closed f = false;
  pe_fd : exists o, w_fds w (fd_of f) = Some o /\ o_uid o = u /\ (f_readable f = true -> o_rd o = true) /\ (f_writable f = true -> o_wr o = true);
  pe_ino : exists i, w_inodes w u = Some i /\ n_kind i = KPipe }.

(** A writer and a reader on the pipe [u], with buffers of any sizes. *)
Record two_ends (P : pipe) (u : uid) : Prop := mkTwoEnds {
  te_out : pend (b_raw (pp_out P)) (pp_w P) u; te_in : pend (b_raw (pp_in P)) (pp_w P) u;
  te_wr : f_writable (b_raw (pp_out P)) = true; te_rd : f_readable (b_raw (pp_in P)) = true;
  te_size_out : 0 < b_size (pp_out P); te_size_in : 0 < b_size (pp_in P); te_wbuf : b_wbuf (pp_in P) = [] }.

(** The bytes on the way: those that the reader has in its buffer, those in the pipe, those that the writer has. *)
Definition queue (P : pipe) (u : uid) : list byte := unread (pp_in P) ++ inside (pp_w P) u ++ b_wbuf (pp_out P).

(** The bytes that a write has taken, when the system did not fail. *)
Definition accepted (c : pcall) (o : pout) : list Z :=
  match c, o with
  | PcWrite d, PoCount _ => d
  | PcWrite d, PoErr (EBlocking n) => firstn (Z.to_nat n) d
  | _, _ => []
  end.
Definition certain (c : pcall) (o : pout) : Prop := match c, o with PcWrite _, PoErr (EOS _) => False | _, _ => True end.
Fixpoint flows (f : pcall -> pout -> list Z) (cs : list pcall) (os : list pout) : list Z :=
  match cs, os with c :: cs, o :: os => f c o ++ flows f cs os | _, _ => [] end.
(** The exceptions of the calls. *)
Definition told (c : pcall) (e : exn) : Prop :=
  match c with
  | PcWrite _ => (exists x, e = EOS x) \/ (exists n, e = EBlocking n)
  | PcFlush => (exists x, e = EOS x) \/ e = EBlocking 0
  | PcRead (Some n) => (exists x, e = EOS x) \/ (n < -1 /\ e = EValue)
  | PcReadinto _ _ => (exists x, e = EOS x) \/ e = EType \/ e = EValue
  | _ => exists x, e = EOS x
  end.
