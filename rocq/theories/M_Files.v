(** Model of read_from_file, write_to_file and append_to_file, rsfile_utilities.py:86-222, for
    binary data, on top of rsopen and the streams it returns.  No proofs here. *)
From Coq Require Import ZArith List Bool Ascii String.
From Verif Require Import M_Base M_Modes M_Registry M_Kernel M_World M_Raw M_Open M_Buffered.
Import ListNotations.
Open Scope Z_scope.

(** * The stream returned by rsopen, seen as an object with methods
    The state is that of a buffered stream; an unbuffered stream does not use its buffers. *)

Definition kind_of (l : layer) : option bkind :=
  match l with LRaw => None | LReader => Some BReader | LWriter => Some BWriter | LRandom => Some BRandom end.
Definition on_stream {A} (l : layer) (raw : B A) (buffered : bkind -> B A) : B A :=
  match kind_of l with None => raw | Some k => buffered k end.

(** write(): number of bytes, or None when an unbuffered stream would block *)
Definition s_write (l : layer) (d : list byte) : B (option Z) :=
  on_stream l (on_raw (fun f => raw_write f d)) (fun k => n <- b_write k d ;; ret (Some n)).
Definition s_flush (l : layer) : B unit := on_stream l (on_raw raw_flush) b_flush.
(** read() without argument *)
Definition s_read (l : layer) : B (option (list byte)) :=
  on_stream l (on_raw (fun f => raw_read f None)) (fun k => b_read k None).
(** sync() without arguments: metadata=True, full_flush=True, rsfileio_abstract.py:506 *)
Definition s_sync (has_fdatasync : bool) (l : layer) : B unit :=
  on_stream l (on_raw (fun f => raw_sync has_fdatasync f true true)) (fun k => b_sync has_fdatasync k true true).
Definition s_close (l : layer) : B unit := on_stream l raw_close_b b_close.

(** [with rsopen(...) as myfile: body], _pyio_py312_backup.py:494-501: closed on leaving, in every
    case. *)
Definition with_open {A} (py_u : bool) (a : openargs) (body : layer -> B A) : M A :=
  s <- rsopen py_u a ;;
  fun w =>
    let '(r, b) := finally (body (st_layer s)) (s_close (st_layer s)) (fresh (st_raw s) (st_bufsize s) w) in
    (r, b_w b).

(** The arguments common to the three functions: [enc], [errs], [nl]: encoding, errors, newline
    given. *)
Record fileargs : Type := mkFA {
  fa_name : pyname; fa_buffering : option Z; fa_enc : bool; fa_errs : bool; fa_nl : bool;
  fa_locking : bool; fa_timeout : parg }.
Definition open_args (a : fileargs) (mode : list ascii) : openargs :=
  mkOA (fa_name a) mode None None true None (fa_buffering a) (fa_locking a) (fa_timeout a)
       false false (fa_enc a) (fa_errs a) (fa_nl a) None.

Definition flag (b : bool) (c : ascii) : list ascii := if b then [c] else [].

(** * read_from_file(filename, binary=True), lines 100-130 *)
Definition read_mode : list ascii := ["R"; "+"; "B"]%char.
Fixpoint read_blocks (fuel : nat) (l : layer) (acc : list byte) : B (list byte) :=
  match fuel with
  | O => raise EFuel
  | S k =>
      t <- s_read l ;;
      match t with
      | None | Some [] => ret acc
      | Some t => read_blocks k l (acc ++ t)
      end
  end.
(** Bytes left to read bound the number of turns. *)
Definition read_whole (l : layer) : B (list byte) :=
  n <- on_raw readall_fuel ;; read_blocks (S (S n)) l [].
Definition read_from_file (py_u : bool) (a : fileargs) : M (list byte) :=
  with_open py_u (open_args a read_mode) read_whole.

(** * write_to_file(filename, data), lines 153-177 *)
Definition write_mode (must_create must_not_create : bool) : list ascii :=
  (["W"; "E"]%char ++ flag must_not_create "N" ++ flag must_create "C" ++ ["B"%char])%list.
Definition write_body (has_fdatasync sync : bool) (d : list byte) (l : layer) : B unit :=
  s_write l d ;; s_flush l ;; if sync then s_sync has_fdatasync l else ret tt.
Definition write_to_file (py_u has_fdatasync : bool) (a : fileargs) (d : list byte)
    (sync must_create must_not_create : bool) : M unit :=
  with_open py_u (open_args a (write_mode must_create must_not_create)) (write_body has_fdatasync sync d).

(** * append_to_file(filename, data), lines 199-222 *)
Definition append_mode (must_not_create : bool) : list ascii :=
  (["A"%char] ++ flag must_not_create "N" ++ ["B"%char])%list.
Definition append_to_file (py_u has_fdatasync : bool) (a : fileargs) (d : list byte)
    (sync must_not_create : bool) : M unit :=
  with_open py_u (open_args a (append_mode must_not_create)) (write_body has_fdatasync sync d).
