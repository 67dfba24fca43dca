(** Specification vocabulary of C64: a reader whose system calls may fail or would block, as
    a cursor in the content [c] of the file.  [None]: the place is lost. *)
From Coq Require Import ZArith List Bool.
From Verif Require Import M_Base S_Bytes S_Raw S_Buffered.
Import ListNotations.
Open Scope Z_scope.

Definition is_read (op : bop) : Prop := exists n, op = BoRead n.

Inductive fstep (c : list Z) : option Z -> bop -> rout -> option Z -> Prop :=
(* as without failures *)
| FS_ok : forall p op out p', bastep (mkBacc true false) (c, p) op out (c, p') -> fstep c (Some p) op out (Some p')
(* the stream would block: read() gives the bytes it got, perhaps fewer than asked, or None *)
| FS_short : forall p n d, slice_at c p d -> (forall z, n = Some z -> 0 <= z -> len d <= z) ->
    fstep c (Some p) (BoRead n) (OBytes d) (Some (p + len d))
| FS_none : forall p n, fstep c (Some p) (BoRead n) ONone (Some p)
(* peek() and read1() give nothing *)
| FS_nothing : forall p op n, op = BoPeek n \/ op = BoRead1 n -> fstep c (Some p) op (OBytes []) (Some p)
(* a call fails; it can be tried again unless it was read() *)
| FS_fail : forall p op e, ~ is_read op -> fstep c (Some p) op (OErr (EOS e)) (Some p)
| FS_read_fail : forall p n e, fstep c (Some p) (BoRead n) (OErr (EOS e)) None
(* the place is lost until a seek() that succeeds *)
| FS_lost : forall op out, (forall off wh t, op = BoSeek off wh -> out <> OInt t) -> fstep c None op out None
| FS_found : forall off wh t, 0 <= t -> (wh <> 1 -> seek_target c 0 off wh = Some t) ->
    fstep c None (BoSeek off wh) (OInt t) (Some t).

Inductive fruns (c : list Z) : option Z -> list bop -> list rout -> option Z -> Prop :=
| FR_nil : forall s, fruns c s [] [] s
| FR_cons : forall s op out s1 ops outs s2, fstep c s op out s1 -> fruns c s1 ops outs s2 ->
    fruns c s (op :: ops) (out :: outs) s2.

(** The machine one would wish for: no failure loses the place. *)
Inductive gstep (c : list Z) : Z -> bop -> rout -> Z -> Prop :=
| GS_step : forall p op out p', fstep c (Some p) op out (Some p') -> gstep c p op out p'
| GS_read_fail : forall p n e, gstep c p (BoRead n) (OErr (EOS e)) p.
Inductive gruns (c : list Z) : Z -> list bop -> list rout -> Z -> Prop :=
| GR_nil : forall s, gruns c s [] [] s
| GR_cons : forall s op out s1 ops outs s2, gstep c s op out s1 -> gruns c s1 ops outs s2 ->
    gruns c s (op :: ops) (out :: outs) s2.
