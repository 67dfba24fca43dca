(** Encodings in which every position in the text is a byte position, and the machine of C69: a
    text stream as a cursor in the bytes of its file. *)
From Coq Require Import ZArith List Bool.
From Verif Require Import M_Base M_Newline M_Text S_Bytes S_Newline S_Text.
Import ListNotations.
Open Scope Z_scope.

(** The decoder has no flags; a byte completes at most one character, and then nothing is kept; the end of the
    input adds nothing; carriage returns come from the byte 13. *)
Record bytewise_codec (cd : codec) : Prop := mkPlain {
  pc_flags : forall x fin out b f, cd_decode cd ([], 0) x fin = Some (out, (b, f)) -> f = 0;
  pc_one : forall x out s y out' b' f', cd_decode cd ([], 0) x false = Some (out, s) ->
    cd_decode cd s [y] false = Some (out', (b', f')) -> out' = [] \/ ((exists a, out' = [a]) /\ b' = []);
  pc_final : forall x out s, cd_decode cd ([], 0) x true = Some (out, s) -> exists s', cd_decode cd ([], 0) x false = Some (out, s');
  pc_cr : forall x fin out s, cd_decode cd ([], 0) x fin = Some (out, s) -> In 13 out -> In 13 x }.

(** No line ending of two characters, or one that is translated, stands in the way. *)
Definition plain_lines (nl : nlarg) (content : list Z) : Prop :=
  match nl with NlNone | NlEmpty => ~ In 13 content | _ => True end.

(** State: the position in bytes; whether tell() is enabled (not in the course of an iteration).  [rest n r]: the text [r]
    is left at position [n]. *)
Section Machine.
  Variables (cd : codec) (nl : nlarg) (C : list Z).
  Definition rest (n : Z) (r : list Z) : Prop := 0 <= n /\ text_of cd nl (skipn (Z.to_nat n) C) r.
  Inductive pstep : Z * bool -> top -> tout -> Z * bool -> Prop :=
  | PS_read : forall n t k r n', rest n r -> rest n' (skipn (length (limit k r)) r) ->
      pstep (n, t) (ToRead k) (TText (limit k r)) (n', t)
  | PS_readline : forall n t k r l n', rest n r -> first_line nl r l -> rest n' (skipn (length (limit k l)) r) ->
      pstep (n, t) (ToReadline k) (TText (limit k l)) (n', t)
  | PS_next : forall n t r l n', rest n r -> first_line nl r l -> l <> [] -> rest n' (skipn (length l) r) ->
      pstep (n, t) ToNext (TText l) (n', false)
  | PS_stop : forall n t n', rest n [] -> rest n' [] -> pstep (n, t) ToNext TStop (n', true)
  | PS_tell : forall n, pstep (n, true) ToTell (TInt n) (n, true)
  | PS_tell_disabled : forall n, pstep (n, false) ToTell (TErr (EOS 0)) (n, false)
  | PS_seek : forall n t m, pstep (n, t) (ToSeek m) (TInt m) (m, true)
  | PS_end : forall n t, pstep (n, t) ToEnd (TInt (len C)) (len C, true).
  Inductive pruns : Z * bool -> list top -> list tout -> Z * bool -> Prop :=
  | PR_nil : forall s, pruns s [] [] s
  | PR_cons : forall s op out s1 ops outs s2, pstep s op out s1 -> pruns s1 ops outs s2 -> pruns s (op :: ops) (out :: outs) s2.
End Machine.
