(** write() of a raw stream on windows (M_Windows) in single system calls, with other processes
    appending to the file before each of them.  No proofs here. *)
From Coq Require Import ZArith List Bool.
From Verif Require Import M_Base M_Registry M_World M_Raw M_Windows.
Import ListNotations.
Open Scope Z_scope.

(** The file, and what others will append before the next calls. *)
Definition shared : Type := wfile * list (list byte).
Definition call {A} (m : W A) : comp shared A :=
  fun s => let '(x, env) := s in
           let '(r, x') := m (x_set_data x (x_data x ++ hd [] env)) in (r, (x', tl env)).
(** what takes no system call *)
Definition local {A} (m : W A) : comp shared A :=
  fun s => let '(x, env) := s in let '(r, x') := m x in (r, (x', env)).

(** rsfileio_windows.py:388-423, as v_inner_write; _inner_extend does nothing when it is to fill with zeros (226-235). *)
Definition s_inner_write (v : wio) (b : list byte) : comp shared (option Z) :=
  (if v_append v then call (v_inner_seek 0 2) ;; ret tt else ret tt) ;;
  cur_pos <- call v_inner_tell ;;
  size <- call v_inner_size ;;
  (if size <? cur_pos then local (v_inner_extend v cur_pos true) else ret tt) ;;
  n <- call (write_file b) ;;
  if n =? 0 then ret None else ret (Some n).
(** rsfileio_abstract.py:415-454, as v_write *)
Definition s_write (v : wio) (b : list byte) : comp shared (option Z) :=
  local (v_check_closed v) ;; local (v_check_writable v) ;;
  r <- s_inner_write v b ;;
  match r with
  | None => ret None
  | Some n =>
      if negb (is_nil b) && (n =? 0) then raise EAssert
      else if (n <? 0) || (Z.of_nat (length b) <? n) then raise ERuntime
      else ret (Some n)
  end.
