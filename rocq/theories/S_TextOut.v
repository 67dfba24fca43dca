(** Specification vocabulary for writing text: the abstract machine of C70.  Bytes, a cursor and
    the state of the encoder; nothing here mentions buffers. *)
From Coq Require Import ZArith List Bool.
From Verif Require Import M_Base M_Registry M_World M_Raw M_Buffered M_Text S_Bytes S_Text S_TextFiles.
Import ListNotations.
Open Scope Z_scope.

Inductive wop : Type := WoText (s : list Z) | WoFlush.
Inductive wout : Type := WNum (n : Z) | WDone | WErr (e : exn).
Definition run_wop (c : tconf) (op : wop) (t : tstate) : wout * tstate :=
  match op with
  | WoText s => let '(r, t') := t_write c s t in (match r with Ok n => WNum n | Err e => WErr e end, t')
  | WoFlush => let '(r, t') := t_flush c t in (match r with Ok _ => WDone | Err e => WErr e end, t')
  end.
Fixpoint run_wops (c : tconf) (ops : list wop) (t : tstate) : list wout * tstate :=
  match ops with
  | [] => ([], t)
  | op :: r => let '(out, t1) := run_wop c op t in let '(outs, t2) := run_wops c r t1 in (out :: outs, t2)
  end.

(** What is passed to the encoder contains the end of a line. *)
Definition ends_line (nl : nlarg) (sep s : list Z) : Prop := In 10 s \/ In 13 (as_written nl sep s).

(** Bytes [d] go to the cursor, or in append mode to the end (the cursor is then that of C68). *)
Inductive puts (app : bool) (c : list Z) (p : Z) (d : list Z) : list Z -> Z -> Prop :=
| Puts_here : forall c', app = false -> stored_at c p d c' -> puts app c p d c' (p + len d)
| Puts_end : forall p', app = true -> puts app c p d (c ++ d) p'.

(** [lb]: line buffering. *)
Inductive tostep (cd : codec) (nl : nlarg) (sep : list Z) (lb app : bool) : list Z * Z * Z -> wop -> wout -> list Z * Z * Z -> Prop :=
| TO_write : forall c p e s d e' c' p', cd_encode cd e (as_written nl sep s) = Some (d, e') -> puts app c p d c' p' ->
    tostep cd nl sep lb app (c, p, e) (WoText s) (WNum (len s)) (c', p', e')
(* a character that the encoding does not have *)
| TO_refused : forall c p e s, cd_encode cd e (as_written nl sep s) = None ->
    tostep cd nl sep lb app (c, p, e) (WoText s) (WErr EValue) (c, p, e)
(* a system call failed: nothing is taken, all is, or if it would block the first [k] bytes *)
| TO_none : forall c p e s d e' x, cd_encode cd e (as_written nl sep s) = Some (d, e') ->
    tostep cd nl sep lb app (c, p, e) (WoText s) (WErr (EOS x)) (c, p, e')
| TO_all : forall c p e s d e' c' p' x, cd_encode cd e (as_written nl sep s) = Some (d, e') -> puts app c p d c' p' ->
    tostep cd nl sep lb app (c, p, e) (WoText s) (WErr (EOS x)) (c', p', e')
| TO_block : forall c p e s d e' k c' p', cd_encode cd e (as_written nl sep s) = Some (d, e') ->
    0 <= k <= len d -> puts app c p (firstn (Z.to_nat k) d) c' p' ->
    tostep cd nl sep lb app (c, p, e) (WoText s) (WErr (EBlocking k)) (c', p', e')
(* the end of a line is to be flushed, and that would block *)
| TO_line_block : forall c p e s d e' c' p', cd_encode cd e (as_written nl sep s) = Some (d, e') ->
    lb = true -> ends_line nl sep s -> puts app c p d c' p' ->
    tostep cd nl sep lb app (c, p, e) (WoText s) (WErr (EBlocking 0)) (c', p', e')
| TO_flush : forall st, tostep cd nl sep lb app st WoFlush WDone st
| TO_flush_fail : forall st x, (exists n, x = EOS n) \/ x = EBlocking 0 -> tostep cd nl sep lb app st WoFlush (WErr x) st.
Inductive toruns (cd : codec) (nl : nlarg) (sep : list Z) (lb app : bool) : list Z * Z * Z -> list wop -> list wout -> list Z * Z * Z -> Prop :=
| TOR_nil : forall st, toruns cd nl sep lb app st [] [] st
| TOR_cons : forall st op out st1 ops outs st2, tostep cd nl sep lb app st op out st1 -> toruns cd nl sep lb app st1 ops outs st2 ->
    toruns cd nl sep lb app st (op :: ops) (out :: outs) st2.

(** Calls after which everything written is in the file: a flush, or with line buffering the
    write of a line's end. *)
Inductive settles (nl : nlarg) (sep : list Z) (lb : bool) : wop -> wout -> Prop :=
| Settles_flush : settles nl sep lb WoFlush WDone
| Settles_line : forall s n, lb = true -> ends_line nl sep s -> settles nl sep lb (WoText s) (WNum n).

(** The text handed over, and calls that all succeed. *)
Fixpoint text_given (ops : list wop) : list Z :=
  match ops with [] => [] | WoText s :: r => s ++ text_given r | WoFlush :: r => text_given r end.
Definition succeeds (out : wout) : Prop := match out with WErr _ => False | _ => True end.

(** Encoding in several times is encoding at once. *)
Definition streaming (cd : codec) : Prop := forall e s1 b1 e1 s2 b2 e2,
  cd_encode cd e s1 = Some (b1, e1) -> cd_encode cd e1 s2 = Some (b2, e2) -> cd_encode cd e (s1 ++ s2) = Some (b1 ++ b2, e2).

(** * The methods of a text stream, for C71 *)
Inductive tcallee : Type :=
| TcRead (n : option Z) | TcReadline (n : option Z) | TcNext | TcWrite (s : list Z) | TcTell | TcSeek (n whence : Z)
| TcTruncate (n : option Z) | TcFlush | TcSize | TcSync (has_fdatasync metadata full : bool)
| TcLock (timeout length offset : parg) (whence : Z) (shared : sarg) | TcUnlock (length offset : parg) (whence : Z).
Definition no_value {A} (m : T A) : T unit := m ;; ret tt.
Definition tcall (guess : nat -> nat -> nat -> Z) (c : tconf) (m : tcallee) : T unit :=
  match m with
  | TcRead n => no_value (t_read c n) | TcReadline n => no_value (t_readline c n) | TcNext => no_value (t_next c)
  | TcWrite s => no_value (t_write c s) | TcTell => no_value (t_tell guess c) | TcSeek n wh => no_value (t_seek guess c n wh)
  | TcTruncate n => no_value (t_truncate guess c n) | TcFlush => t_flush c | TcSize => no_value (t_size c)
  | TcSync h md fu => t_sync c h md fu
  | TcLock t l o wh s => no_value (t_lock_file guess c t l o wh s) | TcUnlock l o wh => t_unlock_file guess c l o wh
  end.
