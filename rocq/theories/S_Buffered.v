(** The abstract machine of C31: a byte array with a cursor, as seen through a
    buffered stream.  It is deterministic except for the amount peek and read1 deliver.
    Nothing here mentions buffers. *)
From Coq Require Import ZArith List Bool.
From Verif Require Import M_Base S_Bytes S_Raw.
Import ListNotations.
Open Scope Z_scope.

Inductive bop : Type :=
| BoRead (n : option Z)       (* read(n); None or -1: everything *)
| BoRead1 (n : Z)
| BoPeek (n : Z)
| BoWrite (d : list Z)
| BoSeek (offset whence : Z)
| BoTell | BoSize | BoFlush
| BoTruncate (size : option Z).

(** What a buffered stream is opened for. *)
Record bacc : Type := mkBacc { ba_rd : bool; ba_wr : bool }.

Definition seek_target (c : list Z) (p off wh : Z) : option Z :=
  if wh =? 0 then Some off else if wh =? 1 then Some (p + off)
  else if wh =? 2 then Some (len c + off) else None.

Inductive bastep (a : bacc) : list Z * Z -> bop -> rout -> list Z * Z -> Prop :=
| BA_unreadable : forall c p op, ba_rd a = false ->
    (exists n, op = BoRead n) \/ (exists n, op = BoRead1 n) ->
    bastep a (c, p) op (OErr EUnsupported) (c, p)
(* BufferedWriter has no such method *)
| BA_nopeek : forall c p n, ba_rd a = false -> bastep a (c, p) (BoPeek n) (OErr EKey) (c, p)
| BA_unwritable : forall c p op, ba_wr a = false ->
    (exists d, op = BoWrite d) \/ (exists s, op = BoTruncate s) ->
    bastep a (c, p) op (OErr EUnsupported) (c, p)
| BA_read_bad : forall c p n, ba_rd a = true -> n < -1 ->
    bastep a (c, p) (BoRead (Some n)) (OErr EValue) (c, p)
(* everything that is left *)
| BA_read_all : forall c p n d, ba_rd a = true -> n = None \/ n = Some (-1) -> rest_from c p d ->
    bastep a (c, p) (BoRead n) (OBytes d) (c, p + len d)
(* exactly n bytes, or everything that is left if there are fewer *)
| BA_read : forall c p n d, ba_rd a = true -> 0 <= n ->
    len d = Z.min n (Z.max 0 (len c - p)) -> slice_at c p d ->
    bastep a (c, p) (BoRead (Some n)) (OBytes d) (c, p + len d)
(* some bytes, at least one unless there is none *)
| BA_read1 : forall c p n d, ba_rd a = true ->
    (0 <= n -> len d <= n) -> slice_at c p d -> (d = [] -> n = 0 \/ len c <= p) ->
    bastep a (c, p) (BoRead1 n) (OBytes d) (c, p + len d)
| BA_peek : forall c p n d, ba_rd a = true ->
    slice_at c p d -> (d = [] -> len c <= p) ->
    bastep a (c, p) (BoPeek n) (OBytes d) (c, p)
| BA_write : forall c p d c', ba_wr a = true -> stored_at c p d c' ->
    bastep a (c, p) (BoWrite d) (OInt (len d)) (c', p + len d)
| BA_seek : forall c p off wh t, seek_target c p off wh = Some t -> 0 <= t ->
    bastep a (c, p) (BoSeek off wh) (OInt t) (c, t)
| BA_seek_neg : forall c p off wh t, seek_target c p off wh = Some t -> t < 0 ->
    bastep a (c, p) (BoSeek off wh) (OErr (EOS EINVAL)) (c, p)
| BA_seek_bad : forall c p off wh, seek_target c p off wh = None ->
    bastep a (c, p) (BoSeek off wh) (OErr EValue) (c, p)
| BA_tell : forall c p, bastep a (c, p) BoTell (OInt p) (c, p)
| BA_size : forall c p, bastep a (c, p) BoSize (OInt (len c)) (c, p)
| BA_flush : forall c p, bastep a (c, p) BoFlush OUnit (c, p)
| BA_trunc : forall c p s n c', ba_wr a = true ->
    n = (match s with None => p | Some x => x end) -> 0 <= n -> resized c n c' ->
    bastep a (c, p) (BoTruncate s) (OInt n) (c', p)
| BA_trunc_neg : forall c p n, ba_wr a = true -> n < 0 ->
    bastep a (c, p) (BoTruncate (Some n)) (OErr (EOS EINVAL)) (c, p).

Inductive baruns (a : bacc) : list Z * Z -> list bop -> list rout -> list Z * Z -> Prop :=
| BAR_nil : forall s, baruns a s [] [] s
| BAR_cons : forall s op out s1 ops outs s2,
    bastep a s op out s1 -> baruns a s1 ops outs s2 ->
    baruns a s (op :: ops) (out :: outs) s2.

(** What a program must not do with a stream that reads and writes (the library
    misbehaves then, see the refutations of C31): truncate, or attempt an impossible seek, after a
    read with neither a write nor a successful seek in between.  [clean]: nothing was read
    since. *)
Fixpoint disciplined (clean : bool) (l : list (bop * rout)) : Prop :=
  match l with
  | [] => True
  | (op, out) :: r =>
      match op, out with
      | BoRead _, _ | BoRead1 _, _ | BoPeek _, _ => disciplined false r
      | BoWrite _, _ => disciplined true r
      | BoSeek _ _, OInt _ => disciplined true r
      | BoSeek _ _, OErr EValue => disciplined clean r
      | BoSeek _ _, _ => clean = true /\ disciplined clean r
      | BoTruncate _, _ => clean = true /\ disciplined clean r
      | _, _ => disciplined clean r
      end
  end.

(** The abstract machine of C32: writing through a stream whose system calls may fail.
    Outcome of write(d): all of [d] is taken; or nothing is (the error came first);
    or, when the call would block, the first [k] bytes (k is told by the exception); or
    all of it although an error is reported. *)
Inductive wstep : list Z * Z -> bop -> rout -> list Z * Z -> Prop :=
| WS_ok : forall s op out s', bastep (mkBacc false true) s op out s' -> wstep s op out s'
| WS_fail : forall s op e, wstep s op (OErr (EOS e)) s
| WS_block : forall s op, wstep s op (OErr (EBlocking 0)) s
| WS_write_fail : forall c p d c' e, stored_at c p d c' ->
    wstep (c, p) (BoWrite d) (OErr (EOS e)) (c', p + len d)
| WS_write_block : forall c p d k c', 0 <= k <= len d -> stored_at c p (firstn (Z.to_nat k) d) c' ->
    wstep (c, p) (BoWrite d) (OErr (EBlocking k)) (c', p + k).
Inductive wruns : list Z * Z -> list bop -> list rout -> list Z * Z -> Prop :=
| WR_nil : forall s, wruns s [] [] s
| WR_cons : forall s op out s1 ops outs s2,
    wstep s op out s1 -> wruns s1 ops outs s2 -> wruns s (op :: ops) (out :: outs) s2.
