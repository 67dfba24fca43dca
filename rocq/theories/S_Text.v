(** Specification vocabulary for text streams: what codecs must guarantee, which text the bytes of a file
    stand for, and the abstract machine of C46 and C47 (a text with a cursor).  No reference to chunks, buffers or snapshots. *)
From Coq Require Import ZArith List Bool.
From Verif Require Import M_Base M_Newline M_Text S_Newline S_Bytes.
Import ListNotations.
Open Scope Z_scope.

(** * Codecs
    The contract of incremental decoders (Python documentation of codecs.IncrementalDecoder): state (b, f) stands for
    having the bytes b still to decode from state (b"", f); cutting the input does not change the output; an error does not
    go away when more bytes come.  Encoder and decoder are inverse on what is encoded from the start. *)
Record good_codec (cd : codec) : Prop := mkGood {
  gc_buf : forall b f x fin, cd_decode cd (b, f) x fin = cd_decode cd ([], f) (b ++ x) fin;
  gc_nil : forall f, cd_decode cd ([], f) [] false = Some ([], ([], f));
  gc_nil_final : forall f, cd_decode cd ([], f) [] true = Some ([], ([], f));
  gc_app : forall f x y fin out s, cd_decode cd ([], f) x false = Some (out, s) ->
    cd_decode cd ([], f) (x ++ y) fin =
    match cd_decode cd s y fin with Some (out', s') => Some (out ++ out', s') | None => None end;
  gc_error : forall f x y fin, cd_decode cd ([], f) x false = None -> cd_decode cd ([], f) (x ++ y) fin = None;
  gc_keep : forall f x out b f', cd_decode cd ([], f) x false = Some (out, (b, f')) -> exists a, x = a ++ b;
  gc_end : forall f x out b f', cd_decode cd ([], f) x true = Some (out, (b, f')) -> b = [];
  gc_flags : forall f x fin out b f', 0 <= f < 2 ^ 62 -> cd_decode cd ([], f) x fin = Some (out, (b, f')) -> 0 <= f' < 2 ^ 62;
  gc_len : forall f x fin out s, cd_decode cd ([], f) x fin = Some (out, s) -> len out <= 16 * len x;
  gc_d0 : cd_d0 cd = 0;
  gc_inverse : forall s b e, cd_encode cd (cd_e0 cd) s = Some (b, e) ->
    exists st, cd_decode cd ([], cd_d0 cd) b true = Some (s, st) }.

(** * The text that the bytes [b] stand for, with the newline argument [nl] *)
Definition newlines_read (nl : nlarg) (raw txt : list Z) : Prop :=
  match nl with
  | NlNone => exists ps, pieces raw ps /\ txt = flat_map translated ps
  | _ => txt = raw
  end.
Definition text_of (cd : codec) (nl : nlarg) (b txt : list Z) : Prop :=
  exists raw st, cd_decode cd ([], cd_d0 cd) b true = Some (raw, st) /\ newlines_read nl raw txt.

(** * Lines *)
Definition ending (nl : nlarg) (e : list Z) : Prop :=
  match nl with
  | NlNone | NlLf => e = [10]
  | NlEmpty => e = [10] \/ e = [13] \/ e = [13; 10]
  | NlCr => e = [13]
  | NlCrLf => e = [13; 10]
  end.
(** [line] is the first line of [s]: up to the first line ending, the longest if there is a choice; all of [s] if there is no line ending. *)
Definition first_line (nl : nlarg) (s line : list Z) : Prop :=
  (exists pre e r, s = pre ++ e ++ r /\ line = pre ++ e /\ ending nl e
     /\ (forall a e' r', s = a ++ e' ++ r' -> ending nl e' -> (length pre <= length a)%nat)
     /\ (forall e' r', s = pre ++ e' ++ r' -> ending nl e' -> (length e' <= length e)%nat))
  \/ (line = s /\ forall a e r, s = a ++ e ++ r -> ending nl e -> False).

(** * The abstract machine *)
Inductive top : Type :=
| ToRead (n : option Z) | ToReadline (n : option Z) | ToNext
| ToTell | ToSeek (cookie : Z) | ToEnd.
Inductive tout : Type := TText (s : list Z) | TStop | TInt (n : Z) | TErr (e : exn).

(** The text that is left; the positions given out, each with the text that was left then; whether tell() is enabled (it is
    not in the course of an iteration); whether some seek() was done. *)
Record tview : Type := mkTV { tv_rest : list Z; tv_known : list (Z * list Z); tv_telling : bool; tv_sought : bool }.

Definition limit (n : option Z) (l : list Z) : list Z :=
  match n with None => l | Some n => if n <? 0 then l else firstn (Z.to_nat n) l end.

Inductive tastep (nl : nlarg) : tview -> top -> tout -> tview -> Prop :=
| TA_read : forall r k t q n, tastep nl (mkTV r k t q) (ToRead n) (TText (limit n r)) (mkTV (skipn (length (limit n r)) r) k t q)
| TA_readline : forall r k t q n l, first_line nl r l ->
    tastep nl (mkTV r k t q) (ToReadline n) (TText (limit n l)) (mkTV (skipn (length (limit n l)) r) k t q)
| TA_next : forall r k t q l, first_line nl r l -> l <> [] ->
    tastep nl (mkTV r k t q) ToNext (TText l) (mkTV (skipn (length l) r) k false q)
| TA_stop : forall k t q, tastep nl (mkTV [] k t q) ToNext TStop (mkTV [] k true q)
| TA_tell : forall r k q n, tastep nl (mkTV r k true q) ToTell (TInt n) (mkTV r ((n, r) :: k) true q)
| TA_tell_disabled : forall r k q, tastep nl (mkTV r k false q) ToTell (TErr (EOS 0)) (mkTV r k false q)
(* the defect of C_Text.C47_tell_after_seek_refuted: only after some seek() *)
| TA_tell_assert : forall r k, tastep nl (mkTV r k true true) ToTell (TErr EAssert) (mkTV r k true true)
| TA_seek : forall r k t q n r', In (n, r') k -> tastep nl (mkTV r k t q) (ToSeek n) (TInt n) (mkTV r' k true true)
| TA_end : forall r k t q n, tastep nl (mkTV r k t q) ToEnd (TInt n) (mkTV [] ((n, []) :: k) true true).

Inductive taruns (nl : nlarg) : tview -> list top -> list tout -> tview -> Prop :=
| TAR_nil : forall s, taruns nl s [] [] s
| TAR_cons : forall s op out s1 ops outs s2,
    tastep nl s op out s1 -> taruns nl s1 ops outs s2 -> taruns nl s (op :: ops) (out :: outs) s2.

(** Programs that seek only to positions they were given. *)
Fixpoint seeks_known (known : list Z) (l : list (top * tout)) : Prop :=
  match l with
  | [] => True
  | (ToSeek n, _) :: r => In n known /\ seeks_known known r
  | (ToTell, TInt n) :: r | (ToEnd, TInt n) :: r => seeks_known (n :: known) r
  | _ :: r => seeks_known known r
  end.

(** What a program sees of an operation. *)
Definition run_top (guess : nat -> nat -> nat -> Z) (c : tconf) (op : top) (t : tstate) : tout * tstate :=
  match op with
  | ToRead n => match t_read c n t with (Ok s, t') => (TText s, t') | (Err e, t') => (TErr e, t') end
  | ToReadline n => match t_readline c n t with (Ok s, t') => (TText s, t') | (Err e, t') => (TErr e, t') end
  | ToNext => match t_next c t with
              | (Ok (Some s), t') => (TText s, t') | (Ok None, t') => (TStop, t') | (Err e, t') => (TErr e, t')
              end
  | ToTell => match t_tell guess c t with (Ok n, t') => (TInt n, t') | (Err e, t') => (TErr e, t') end
  | ToSeek n => match t_seek guess c n 0 t with (Ok n, t') => (TInt n, t') | (Err e, t') => (TErr e, t') end
  | ToEnd => match t_seek guess c 0 2 t with (Ok n, t') => (TInt n, t') | (Err e, t') => (TErr e, t') end
  end.
Fixpoint run_tops (guess : nat -> nat -> nat -> Z) (c : tconf) (ops : list top) (t : tstate) : list tout * tstate :=
  match ops with
  | [] => ([], t)
  | op :: r => let '(out, t1) := run_top guess c op t in
               let '(outs, t2) := run_tops guess c r t1 in (out :: outs, t2)
  end.
(** The number int((a / b) * n) of _pyio, up to rounding: at most a when n is at most b. *)
Definition sane (guess : nat -> nat -> nat -> Z) : Prop := forall a b n, (n <= b)%nat -> guess a b n <= Z.of_nat a.
Definition exact_guess (a b n : nat) : Z := Z.of_nat (a * n / b).

(** Lines of a text, as iteration gives them. *)
Inductive lines_of (nl : nlarg) : list Z -> list (list Z) -> Prop :=
| LO_nil : lines_of nl [] []
| LO_cons : forall s l r ls, first_line nl s l -> l <> [] -> s = l ++ r -> lines_of nl r ls -> lines_of nl s (l :: ls).
