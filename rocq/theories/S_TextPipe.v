(** Specification vocabulary: lines of text through a pipe (C95). *)
From Coq Require Import ZArith List Bool.
From Verif Require Import M_Base M_Registry M_Kernel M_World M_Raw M_Buffered M_Text S_Bytes.
Import ListNotations.
Open Scope Z_scope.

(** The calls of the writer, and of the reader: readline(), or next() of an iteration. *)
Inductive lcall : Type := LcWrite (s : list Z) | LcFlush | LcLine (iteration : bool).
Inductive lout : Type := LoCount (n : Z) | LoDone | LoLine (s : list Z) | LoStop | LoErr (e : exn).

(** State of the encoder; text that was flushed and not read; text that was not flushed. *)
Definition lview : Type := (Z * list Z * list Z)%type.
(** What is written with line buffering goes at once if it has the end of a line. *)
Definition at_once (lb : bool) (s : list Z) : Prop := lb = true /\ (In 10 s \/ In 13 s).

Inductive lstep (cd : codec) (lb : bool) : lview -> lcall -> lout -> lview -> Prop :=
| L_write e f h s d e' : cd_encode cd e s = Some (d, e') -> ~ at_once lb s -> lstep cd lb (e, f, h) (LcWrite s) (LoCount (len s)) (e', f, h ++ s)
| L_write_line e f h s d e' : cd_encode cd e s = Some (d, e') -> at_once lb s -> lstep cd lb (e, f, h) (LcWrite s) (LoCount (len s)) (e', f ++ h ++ s, [])
(* a character that the encoding does not have *)
| L_refused e f h s : cd_encode cd e s = None -> lstep cd lb (e, f, h) (LcWrite s) (LoErr EValue) (e, f, h)
| L_flush e f h : lstep cd lb (e, f, h) LcFlush LoDone (e, f ++ h, [])
(* the next line *)
| L_line e f h l r iteration : f = l ++ 10 :: r -> ~ In 10 l -> lstep cd lb (e, f, h) (LcLine iteration) (LoLine (l ++ [10])) (e, r, h).

(** Nothing is said of what follows a line asked for before it was flushed. *)
Inductive lruns (cd : codec) (lb : bool) : lview -> list lcall -> list lout -> Prop :=
| LR_nil v : lruns cd lb v [] []
| LR_step v c o v' cs os : lstep cd lb v c o v' -> lruns cd lb v' cs os -> lruns cd lb v (c :: cs) (o :: os)
| LR_early e f h iteration cs os : ~ In 10 f -> lruns cd lb (e, f, h) (LcLine iteration :: cs) os.

(** Encoder and decoder move together: what the one makes of a text the other turns back, and keeps no bytes. *)
Definition lockstep (cd : codec) : Prop := exists R : Z -> Z -> Prop, R (cd_e0 cd) (cd_d0 cd)
  /\ forall e f s b e', R e f -> cd_encode cd e s = Some (b, e') -> exists f', cd_decode cd ([], f) b false = Some (s, ([], f')) /\ R e' f'.

(** No system call fails (they may transfer less than asked). *)
Definition calm (w : world) : Prop := Forall (fun e => match e with IoErr _ => False | _ => True end) (w_io w).

(** The settings of open() whose lines end with "\n", on both sides. *)
Definition plain_reader (c : tconf) : Prop := tc_kind c = BReader /\ (tc_newline c = NlNone \/ tc_newline c = NlEmpty \/ tc_newline c = NlLf).
Definition plain_writer (c : tconf) : Prop := tc_kind c = BWriter
  /\ (tc_newline c = NlNone /\ tc_linesep c = [10] \/ tc_newline c = NlEmpty \/ tc_newline c = NlLf).
Definition universal (c : tconf) : Prop := tc_newline c = NlNone \/ tc_newline c = NlEmpty.
Definition no_return (c : lcall) : Prop := match c with LcWrite s => ~ In 13 s | _ => True end.
