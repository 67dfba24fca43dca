(** The abstract machine of C23: a byte array with a cursor.  [rop] are the calls a
    program makes on a raw stream, [rout] what it sees.  The abstract machine is
    nondeterministic exactly where the kernel is: how many bytes one system call
    handles, and (when [faults] holds) whether a system call fails. *)
From Coq Require Import ZArith List Bool.
From Verif Require Import M_Base S_Bytes.
Import ListNotations.
Open Scope Z_scope.

Inductive rop : Type :=
| RRead (n : Z)               (* read(n), any n; n < 0 means everything *)
| RReadInto (n : Z)           (* readinto(buffer of n bytes), n >= 0 *)
| RWrite (b : list Z)
| RSeek (offset whence : Z)
| RTell | RSize | RFlush
| RTruncate (size : option Z).

Inductive rout : Type :=
| OBytes (d : list Z)         (* bytes *)
| ONone                       (* None: would block *)
| OInt (n : Z)
| OUnit
| OErr (e : exn).

(** Access rights of the stream. *)
Record acc : Type := mkAcc { a_rd : bool; a_wr : bool; a_app : bool }.

(** An operating-system failure. *)
Definition os_failure (o : rout) : Prop := exists e, o = OErr (EOS e).

(** [astep faults a (c, p) op out (c', p')]. *)
Inductive astep (faults : Prop) (a : acc) : list Z * Z -> rop -> rout -> list Z * Z -> Prop :=
(* what the stream is not opened for is refused *)
| AS_unreadable : forall c p op, a_rd a = false ->
    (exists n, op = RRead n \/ op = RReadInto n) ->
    astep faults a (c, p) op (OErr EUnsupported) (c, p)
| AS_unwritable : forall c p op, a_wr a = false ->
    (exists b, op = RWrite b) \/ (exists s, op = RTruncate s) ->
    astep faults a (c, p) op (OErr EUnsupported) (c, p)
(* reading at most n bytes: at least one byte unless n = 0 or end of file *)
| AS_read : forall c p n d, a_rd a = true -> 0 <= n ->
    len d <= n -> slice_at c p d -> (d = [] -> n = 0 \/ len c <= p) ->
    astep faults a (c, p) (RRead n) (OBytes d) (c, p + len d)
| AS_readinto : forall c p n d, a_rd a = true -> 0 <= n ->
    len d <= n -> slice_at c p d -> (d = [] -> n = 0 \/ len c <= p) ->
    astep faults a (c, p) (RReadInto n) (OBytes d) (c, p + len d)
(* reading everything *)
| AS_readall : forall c p n d, a_rd a = true -> n < 0 -> rest_from c p d ->
    astep faults a (c, p) (RRead n) (OBytes d) (c, p + len d)
(* writing k <= len b bytes, at least one if there is one to write *)
| AS_write : forall c p b k c' q, a_wr a = true ->
    0 <= k <= len b -> (b <> [] -> 0 < k) ->
    q = (if a_app a then len c else p) ->
    stored_at c q (firstn (Z.to_nat k) b) c' ->
    astep faults a (c, p) (RWrite b) (OInt k) (c', q + k)
(* positions *)
| AS_seek : forall c p off wh base, (wh = 0 /\ base = 0) \/ (wh = 1 /\ base = p) \/ (wh = 2 /\ base = len c) ->
    0 <= base + off ->
    astep faults a (c, p) (RSeek off wh) (OInt (base + off)) (c, base + off)
| AS_seek_neg : forall c p off wh base, (wh = 0 /\ base = 0) \/ (wh = 1 /\ base = p) \/ (wh = 2 /\ base = len c) ->
    base + off < 0 ->
    astep faults a (c, p) (RSeek off wh) (OErr (EOS EINVAL)) (c, p)
| AS_seek_bad : forall c p off wh, wh <> 0 -> wh <> 1 -> wh <> 2 ->
    astep faults a (c, p) (RSeek off wh) (OErr (EOS EINVAL)) (c, p)
| AS_tell : forall c p, astep faults a (c, p) RTell (OInt p) (c, p)
| AS_size : forall c p, astep faults a (c, p) RSize (OInt (len c)) (c, p)
| AS_flush : forall c p, astep faults a (c, p) RFlush OUnit (c, p)
(* truncation: the cursor does not move *)
| AS_trunc : forall c p s n c', a_wr a = true ->
    n = (match s with None => p | Some x => x end) -> 0 <= n -> resized c n c' ->
    astep faults a (c, p) (RTruncate s) (OInt n) (c', p)
| AS_trunc_neg : forall c p n, a_wr a = true -> n < 0 ->
    astep faults a (c, p) (RTruncate (Some n)) (OErr (EOS EINVAL)) (c, p)
(* failures of the system: nothing changes (a failing read-everything may have moved
   the cursor; its bytes are not lost from the file) *)
| AS_fail : forall c p op out, faults -> os_failure out -> (forall n, op = RRead n -> 0 <= n) ->
    astep faults a (c, p) op out (c, p)
| AS_fail_all : forall c p n out p', faults -> n < 0 -> os_failure out ->
    p <= p' <= Z.max p (len c) ->
    astep faults a (c, p) (RRead n) out (c, p')
| AS_block : forall c p op, faults -> (exists n, op = RRead n) \/ (exists b, op = RWrite b) ->
    astep faults a (c, p) op ONone (c, p)
| AS_block_into : forall c p n, faults -> astep faults a (c, p) (RReadInto n) (OErr EType) (c, p)
| AS_block_all : forall c p n d, faults -> n < 0 -> slice_at c p d ->
    astep faults a (c, p) (RRead n) (OBytes d) (c, p + len d).

(** Runs of the abstract machine. *)
Inductive aruns (faults : Prop) (a : acc) : list Z * Z -> list rop -> list rout -> list Z * Z -> Prop :=
| AR_nil : forall s, aruns faults a s [] [] s
| AR_cons : forall s op out s1 ops outs s2,
    astep faults a s op out s1 -> aruns faults a s1 ops outs s2 ->
    aruns faults a s (op :: ops) (out :: outs) s2.
