(** Specification vocabulary for C80: text streams over bytes that are not all well-formed.  No reference to chunks, buffers or snapshots. *)
From Coq Require Import ZArith List Bool.
From Verif Require Import M_Base M_Newline M_Text S_Bytes S_Text S_Codecs.
Import ListNotations.
Open Scope Z_scope.

(** The codec that puts the mark [m] in the place of each byte with which no character begins, and of a character cut off by the end. *)
Definition lenient (m : Z) (next : list Z -> nxt) (l : list Z) : nxt := match next l with NBad => NChar m 1 | x => x end.
Definition marking (m : Z) (next : list Z -> nxt) (enc1 : Z -> option (list Z)) : codec :=
  mkCodec 0 (fun e s => match encode_all enc1 s with Some b => Some (b, e) | None => None end)
          0 (fun st x final =>
               match decode_all (lenient m next) (length (fst st ++ x)) (fst st ++ x) false with
               | None => None
               | Some (o, b) => if final then Some (o ++ match b with [] => [] | _ => [m] end, ([], snd st)) else Some (o, (b, snd st))
               end).
Definition utf8_marking (m : Z) : codec := marking m utf8_next utf8_enc1.

(** [cd'] decodes like [cd] what [cd] can decode. *)
Record extends (cd cd' : codec) : Prop := mkExt {
  ex_d0 : cd_d0 cd' = cd_d0 cd;
  ex_e0 : cd_e0 cd' = cd_e0 cd;
  ex_decode : forall s x fin r, cd_decode cd s x fin = Some r -> cd_decode cd' s x fin = Some r }.
Definition with_codec (c : tconf) (cd : codec) : tconf := mkTC cd (tc_newline c) (tc_linesep c) (tc_line_buffering c) (tc_kind c).

(** * The abstract machine
    The cursor of S_Text, and a flag: whether an error has made the place in the text uncertain.  It is certain again after a seek() to the end or
    to a position given when it was. *)
Definition byte_position (n : Z) : Prop := 0 <= n < 2 ^ 64.
Inductive mstep (nl : nlarg) : bool * tview -> top -> tout -> bool * tview -> Prop :=
| MS_text : forall v op out v', tastep nl v op out v' -> mstep nl (false, v) op out (false, v')
| MS_error : forall lost v op, op <> ToEnd -> (forall n, op = ToSeek n -> ~ byte_position n) -> mstep nl (lost, v) op (TErr EValue) (true, v)
| MS_lost : forall v op out, op <> ToEnd -> (forall n, op <> ToSeek n) -> mstep nl (true, v) op out (true, v)
| MS_seek : forall v n r, In (n, r) (tv_known v) -> mstep nl (true, v) (ToSeek n) (TInt n) (false, mkTV r (tv_known v) true true)
| MS_end : forall v n, mstep nl (true, v) ToEnd (TInt n) (false, mkTV [] ((n, []) :: tv_known v) true true).
Inductive mruns (nl : nlarg) : bool * tview -> list top -> list tout -> bool * tview -> Prop :=
| MR_nil : forall s, mruns nl s [] [] s
| MR_cons : forall s op out s1 ops outs s2, mstep nl s op out s1 -> mruns nl s1 ops outs s2 -> mruns nl s (op :: ops) (out :: outs) s2.

(** Programs that seek only to positions that they were given before an error, or after a seek() that followed it. *)
Fixpoint seeks_certain (lost : bool) (known : list Z) (l : list (top * tout)) : Prop :=
  match l with
  | [] => True
  | (op, out) :: r =>
      (forall n, op = ToSeek n -> In n known)
      /\ seeks_certain (match out with
                        | TErr EValue => true
                        | _ => match op with ToSeek _ | ToEnd => false | _ => lost end
                        end)
           (match op, out with
            | ToTell, TInt n => if lost then known else n :: known
            | ToEnd, TInt n => n :: known
            | _, _ => known
            end) r
  end.

(** What reading operations gave until the first error, put together. *)
Fixpoint gathered (outs : list tout) : list Z :=
  match outs with
  | TText s :: r => s ++ gathered r
  | TErr _ :: _ => []
  | _ :: r => gathered r
  | [] => []
  end.
