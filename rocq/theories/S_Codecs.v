(** Two codecs that satisfy the contract of S_Text: strict UTF-8 and latin-1.  They are no part of the repository: they show that
    the contract can be met, and are used in the examples. *)
From Coq Require Import ZArith List Bool.
From Verif Require Import M_Base M_Text.
Import ListNotations.
Open Scope Z_scope.

(** What the bytes begin with: a character of [n] bytes, the beginning of a character, or an error. *)
Inductive nxt : Type := NMore | NBad | NChar (c : Z) (n : nat).

Section Codec.
  Variable next : list Z -> nxt.
  Variable enc1 : Z -> option (list Z).

  Fixpoint decode_all (fuel : nat) (l : list Z) (final : bool) : option (list Z * list Z) :=
    match fuel with
    | O => Some ([], l)
    | S k =>
        match l with
        | [] => Some ([], [])
        | _ => match next l with
               | NBad => None
               | NMore => if final then None else Some ([], l)
               | NChar c n => match decode_all k (skipn n l) final with
                              | None => None
                              | Some (o, b) => Some (c :: o, b)
                              end
               end
        end
    end.
  Fixpoint encode_all (s : list Z) : option (list Z) :=
    match s with
    | [] => Some []
    | c :: r => match enc1 c, encode_all r with Some b, Some bs => Some (b ++ bs) | _, _ => None end
    end.
  (** Neither side has flags. *)
  Definition simple_codec : codec :=
    mkCodec 0 (fun e s => match encode_all s with Some b => Some (b, e) | None => None end)
            0 (fun st x final => let l := fst st ++ x in
                 match decode_all (length l) l final with Some (o, b) => Some (o, (b, snd st)) | None => None end).
End Codec.

Definition within (a b x : Z) : bool := (a <=? x) && (x <=? b).
Definition tail (x : Z) : bool := within 128 191 x.

(** RFC 3629 *)
Definition utf8_next (l : list Z) : nxt :=
  match l with
  | [] => NMore
  | a :: r =>
      if within 0 127 a then NChar a 1
      else if within 194 223 a then
        match r with
        | [] => NMore
        | b :: _ => if tail b then NChar ((a - 192) * 64 + (b - 128)) 2 else NBad
        end
      else if within 224 239 a then
        let lo := if a =? 224 then 160 else 128 in
        let hi := if a =? 237 then 159 else 191 in
        match r with
        | [] => NMore
        | b :: r' => if within lo hi b then
                       match r' with
                       | [] => NMore
                       | c :: _ => if tail c then NChar ((a - 224) * 4096 + (b - 128) * 64 + (c - 128)) 3 else NBad
                       end
                     else NBad
        end
      else if within 240 244 a then
        let lo := if a =? 240 then 144 else 128 in
        let hi := if a =? 244 then 143 else 191 in
        match r with
        | [] => NMore
        | b :: r' => if within lo hi b then
                       match r' with
                       | [] => NMore
                       | c :: r'' => if tail c then
                                       match r'' with
                                       | [] => NMore
                                       | d :: _ => if tail d then NChar ((a - 240) * 262144 + (b - 128) * 4096 + (c - 128) * 64 + (d - 128)) 4 else NBad
                                       end
                                     else NBad
                       end
                     else NBad
        end
      else NBad
  end.
Definition utf8_enc1 (c : Z) : option (list Z) :=
  if within 0 127 c then Some [c]
  else if within 128 2047 c then Some [192 + c / 64; 128 + c mod 64]
  else if within 2048 65535 c then
    if within 55296 57343 c then None
    else Some [224 + c / 4096; 128 + (c / 64) mod 64; 128 + c mod 64]
  else if within 65536 1114111 c then
    Some [240 + c / 262144; 128 + (c / 4096) mod 64; 128 + (c / 64) mod 64; 128 + c mod 64]
  else None.
Definition utf8 : codec := simple_codec utf8_next utf8_enc1.

Definition latin1_next (l : list Z) : nxt := match l with [] => NMore | a :: _ => NChar a 1 end.
Definition latin1_enc1 (c : Z) : option (list Z) := if within 0 255 c then Some [c] else None.
Definition latin1 : codec := simple_codec latin1_next latin1_enc1.

(** "utf-8-sig", Lib/encodings/utf_8_sig.py of the standard library: the encoder begins with a byte order mark, which the decoder skips.
    The state 1 of either means: at the start. *)
Definition bom : list Z := [239; 187; 191].
Definition utf8_decode (l : list Z) (final : bool) : option (list Z * (list Z * Z)) :=
  match decode_all utf8_next (length l) l final with Some (o, b) => Some (o, (b, 0)) | None => None end.
Definition utf8_sig : codec :=
  mkCodec 1 (fun e s => match encode_all utf8_enc1 s with
                        | Some b => Some ((if e =? 0 then [] else bom) ++ b, 0)
                        | None => None
                        end)
          1 (fun st x final =>
               let l := fst st ++ x in
               if snd st =? 0 then utf8_decode l final
               else if (length l <? 3)%nat then
                 if starts_with l bom then Some ([], (l, 1)) else utf8_decode l final
               else if starts_with bom l then utf8_decode (skipn 3 l) final
               else utf8_decode l final).
