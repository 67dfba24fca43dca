(** Model of read_from_file, write_to_file and append_to_file, rsfile_utilities.py:86-222, for text: the
    files are opened without "B" and read or written through the text streams of M_Text.  No proofs here. *)
From Coq Require Import ZArith List Bool Ascii String.
From Verif Require Import M_Base M_Modes M_Registry M_Kernel M_World M_Raw M_Open M_Buffered M_Files M_Newline M_Text.
Import ListNotations.
Open Scope Z_scope.

(** The arguments of M_Files, and what encoding, errors and newline stand for: the codec, the newline argument, os.linesep,
    and what TextIOWrapper raises for them, if it does. *)
Record textargs : Type := mkTA {
  ta_file : fileargs; ta_codec : codec; ta_newline : nlarg; ta_linesep : list Z; ta_error : option exn }.
Definition text_open_args (a : textargs) (mode : list ascii) : openargs :=
  let f := ta_file a in
  mkOA (fa_name f) mode None None true None (fa_buffering f) (fa_locking f) (fa_timeout f)
       false false (fa_enc f) (fa_errs f) (fa_nl f) (ta_error a).

(** [with rsopen(...) as myfile: body] for a text stream, rsfile_factories.py:327-336 and _pyio_py312_backup.py:494-501.
    There is always a buffer: rsopen refuses unbuffered text (line 314). *)
Definition text_conf (a : textargs) (s : stream) (k : bkind) : tconf :=
  mkTC (ta_codec a) (ta_newline a) (ta_linesep a) (st_line_buffering s) k.
Definition with_text {A} (py_u : bool) (a : textargs) (mode : list ascii) (body : tconf -> T A) : M A :=
  s <- rsopen py_u (text_open_args a mode) ;;
  fun w =>
    match kind_of (st_layer s) with
    | None => (Err EBadValue, w)
    | Some k =>
        let c := text_conf a s k in
        let '(r, t) := finally (body c) (t_close c) (t_fresh (fresh (st_raw s) (st_bufsize s) w)) in
        (r, b_w (t_b t))
    end.

(** * read_from_file(filename), lines 100-130 *)
Definition text_read_mode : list ascii := ["R"; "+"]%char.
Fixpoint text_blocks (fuel : nat) (c : tconf) (acc : list Z) : T (list Z) :=
  match fuel with
  | O => raise EFuel
  | S k =>
      t <- t_read c None ;;
      match t with
      | [] => ret acc
      | _ => text_blocks k c (acc ++ t)
      end
  end.
(** Bytes left to read bound the number of turns. *)
Definition text_whole (c : tconf) : T (list Z) :=
  n <- on_b (on_raw readall_fuel) ;; text_blocks (S (S n)) c [].
Definition read_text (py_u : bool) (a : textargs) : M (list Z) :=
  with_text py_u a text_read_mode text_whole.

(** * write_to_file(filename, data), lines 153-177 *)
Definition text_write_mode (must_create must_not_create : bool) : list ascii :=
  (["W"; "E"]%char ++ flag must_not_create "N" ++ flag must_create "C")%list.
Definition text_body (has_fdatasync sync : bool) (s : list Z) (c : tconf) : T unit :=
  t_write c s ;; t_flush c ;; if sync then t_sync c has_fdatasync true true else ret tt.
Definition write_text (py_u has_fdatasync : bool) (a : textargs) (s : list Z) (sync must_create must_not_create : bool) : M unit :=
  with_text py_u a (text_write_mode must_create must_not_create) (text_body has_fdatasync sync s).

(** * append_to_file(filename, data), lines 199-222 *)
Definition text_append_mode (must_not_create : bool) : list ascii := (["A"%char] ++ flag must_not_create "N")%list.
Definition append_text (py_u has_fdatasync : bool) (a : textargs) (s : list Z) (sync must_not_create : bool) : M unit :=
  with_text py_u a (text_append_mode must_not_create) (text_body has_fdatasync sync s).
