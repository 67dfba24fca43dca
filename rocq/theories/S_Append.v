(** The abstract machine of C68: a buffered stream in append mode, as a byte array that
    grows at its end.  Nothing here mentions buffers. *)
From Coq Require Import ZArith List Bool.
From Verif Require Import M_Base S_Bytes S_Raw S_Buffered.
Import ListNotations.
Open Scope Z_scope.

(** Content, cursor, and how much tell() is wrong by. *)
Definition apstate : Type := list Z * Z * Z.

Definition is_write (op : bop) : Prop := exists d, op = BoWrite d.
(** Calls whose result is computed from tell(): truncate() without an argument does so if the
    stream also reads. *)
Definition asks_position (a : bacc) (op : bop) : Prop :=
  op = BoTell \/ (op = BoTruncate None /\ ba_rd a = true /\ ba_wr a = true).

Inductive apstep (a : bacc) : apstate -> bop -> rout -> apstate -> Prop :=
(* everything but writing and asking for the position: as for other streams, and tell() is right
   again unless the call was refused *)
| AP_call : forall c p lag op out c' p' lag', ~ is_write op -> ~ asks_position a op ->
    bastep a (c, p) op out (c', p') -> lag' = 0 \/ (lag' = lag /\ exists e, out = OErr e) ->
    apstep a (c, p, lag) op out (c', p', lag')
| AP_unwritable : forall c p lag d, ba_wr a = false ->
    apstep a (c, p, lag) (BoWrite d) (OErr EUnsupported) (c, p, lag)
| AP_write_nothing : forall c p lag lag', ba_wr a = true -> lag' = 0 \/ lag' = lag ->
    apstep a (c, p, lag) (BoWrite []) (OInt 0) (c, p, lag')
(* bytes go to the end, wherever the cursor is *)
| AP_write : forall c p lag d lag', ba_wr a = true -> d <> [] ->
    lag' = 0 \/ lag' = lag + (len c - p) ->
    apstep a (c, p, lag) (BoWrite d) (OInt (len d)) (c ++ d, len (c ++ d), lag')
| AP_tell : forall c p lag, apstep a (c, p, lag) BoTell (OInt (p - lag)) (c, p, lag)
| AP_trunc_here : forall c p lag c', ba_wr a = true -> ba_rd a = true -> 0 <= p - lag -> resized c (p - lag) c' ->
    apstep a (c, p, lag) (BoTruncate None) (OInt (p - lag)) (c', p, 0).

Inductive apruns (a : bacc) : apstate -> list bop -> list rout -> apstate -> Prop :=
| APR_nil : forall s, apruns a s [] [] s
| APR_cons : forall s op out s1 ops outs s2,
    apstep a s op out s1 -> apruns a s1 ops outs s2 ->
    apruns a s (op :: ops) (out :: outs) s2.

(** The bytes handed over by write() calls, and those which write() took according to what it
    returned. *)
Fixpoint handed_over (ops : list bop) : list Z :=
  match ops with
  | [] => []
  | BoWrite d :: r => d ++ handed_over r
  | _ :: r => handed_over r
  end.
Definition no_truncate (ops : list bop) : Prop := forall s, ~ In (BoTruncate s) ops.

(** The content alone, for a writer whose system calls may fail.  write(d) that fails: nothing
    of [d] is taken; or all of it although an error is reported; or, when the call would block,
    the first [k] bytes ([k] is told by the exception). *)
Inductive awstep : list Z -> bop -> rout -> list Z -> Prop :=
| AW_write : forall c d, awstep c (BoWrite d) (OInt (len d)) (c ++ d)
| AW_write_none : forall c d e, awstep c (BoWrite d) (OErr (EOS e)) c
| AW_write_all : forall c d e, awstep c (BoWrite d) (OErr (EOS e)) (c ++ d)
| AW_write_block : forall c d k, 0 <= k <= len d ->
    awstep c (BoWrite d) (OErr (EBlocking k)) (c ++ firstn (Z.to_nat k) d)
| AW_trunc : forall c s n c', s = None \/ s = Some n -> 0 <= n -> resized c n c' -> awstep c (BoTruncate s) (OInt n) c'
| AW_trunc_fail : forall c s e, awstep c (BoTruncate s) (OErr e) c
| AW_other : forall c op out, ~ is_write op -> (forall s, op <> BoTruncate s) -> awstep c op out c.
Inductive awruns : list Z -> list bop -> list rout -> list Z -> Prop :=
| AWR_nil : forall s, awruns s [] [] s
| AWR_cons : forall s op out s1 ops outs s2,
    awstep s op out s1 -> awruns s1 ops outs s2 -> awruns s (op :: ops) (out :: outs) s2.
