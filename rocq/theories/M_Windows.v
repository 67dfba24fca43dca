(** Model of the raw stream RSFileIO on windows, opened on a regular file: rsfileio_windows.py
    under rsfileio_abstract.py.  The operating system part (ReadFile, WriteFile,
    SetFilePointer, SetEndOfFile, GetFileSize) is the contract of the win32 calls, through
    rsbackend/windows_ctypes.py:116-203, 211-250.  No proofs here. *)
From Coq Require Import ZArith List Bool.
From Verif Require Import M_Base M_Registry M_World M_Raw.
Import ListNotations.
Open Scope Z_scope.

(** One open file.  [x_junk]: the bytes the system finds in space it adds to the file without
    their having been written, by position (all zeros on NTFS; "uninitialized" in general,
    rsfileio_windows.py:341-345).  [x_io]: outcomes of the next calls. *)
Record wfile : Type := mkX { x_data : list byte; x_pos : Z; x_io : list ioev; x_junk : nat -> byte }.
Definition W (A : Type) : Type := comp wfile A.

Definition x_set_data (x : wfile) d := mkX d (x_pos x) (x_io x) (x_junk x).
Definition x_set_pos (x : wfile) p := mkX (x_data x) p (x_io x) (x_junk x).
Definition x_set_io (x : wfile) l := mkX (x_data x) (x_pos x) l (x_junk x).

(** The attributes used: rsfileio_abstract.py:119-124, 207-213 (a regular file is seekable). *)
Record wio : Type := mkWio { v_readable : bool; v_writable : bool; v_append : bool; v_closed : bool }.

(** * The system *)

Definition x_next : W ioev :=
  fun x => match x_io x with
           | [] => (Ok IoFull, x)
           | e :: r => (Ok e, x_set_io x r)
           end.

(** [l] extended to [n] bytes with whatever was there. *)
Definition fill_to (junk : nat -> byte) (n : nat) (l : list byte) : list byte :=
  l ++ map junk (seq (length l) (n - length l)).

(** SetFilePointer(handle, offset, method), windows_ctypes.py:147-156; a negative result is
    ERROR_NEGATIVE_SEEK (131), converted to EINVAL, _utilities.py:132-138. *)
Definition set_file_pointer (offset method : Z) : W Z :=
  fun x =>
    let base := if method =? 0 then 0
                else if method =? 1 then x_pos x else Z.of_nat (length (x_data x)) in
    let p := base + offset in
    if p <? 0 then (Err (EOS EINVAL), x) else (Ok p, x_set_pos x p).

(** SetEndOfFile(handle), windows_ctypes.py:159-163 *)
Definition set_end_of_file : W unit :=
  e <- x_next ;;
  match e with
  | IoErr n => raise (EOS n)
  | _ => fun x => (Ok tt, x_set_data x (firstn (Z.to_nat (x_pos x)) (fill_to (x_junk x) (Z.to_nat (x_pos x)) (x_data x))))
  end.

(** GetFileSize(handle), windows_ctypes.py:116-124 *)
Definition get_file_size : W Z := fun x => (Ok (Z.of_nat (length (x_data x))), x).

(** WriteFile(handle, data), windows_ctypes.py:166-203: how many bytes were written. *)
Definition write_file (b : list byte) : W Z :=
  e <- x_next ;;
  match e with
  | IoErr n => raise (EOS n)
  | _ => fun x =>
      let c := firstn (io_count e (length b)) b in
      let p := Z.to_nat (x_pos x) in
      let d := match c with
               | [] => x_data x
               | _ => firstn p (fill_to (x_junk x) p (x_data x)) ++ c ++ skipn (p + length c) (x_data x)
               end in
      (Ok (Z.of_nat (length c)), x_set_pos (x_set_data x d) (x_pos x + Z.of_nat (length c)))
  end.

(** ReadFile(handle, n), windows_ctypes.py:213-250 *)
Definition read_file (n : Z) : W (list byte) :=
  e <- x_next ;;
  match e with
  | IoErr m => raise (EOS m)
  | _ => fun x =>
      let d := firstn (io_count e (Z.to_nat n)) (skipn (Z.to_nat (x_pos x)) (x_data x)) in
      (Ok d, x_set_pos x (x_pos x + Z.of_nat (length d)))
  end.

(** * Inner operations, rsfileio_windows.py *)

(** rsfileio_windows.py:327-336 *)
Definition v_inner_size : W Z := get_file_size.
Definition v_inner_tell : W Z := set_file_pointer 0 1.
(** rsfileio_windows.py:338-353; a whence that is not a key of __POSITION_REFERENCES (lines 33-37) is a
    KeyError. *)
Definition v_inner_seek (offset whence : Z) : W Z :=
  if (whence =? 0) || (whence =? 1) || (whence =? 2) then set_file_pointer offset whence
  else raise EKey.

(** rsfileio_windows.py:355-368; winerror 232 (no data) is written EAGAIN, and a broken pipe EPIPE. *)
Definition v_inner_read (n : Z) : W (option (list byte)) :=
  fun x => match read_file n x with
           | (Ok d, x') => (Ok (Some d), x')
           | (Err (EOS e), x') =>
               if e =? EAGAIN then (Ok None, x')
               else if e =? EPIPE then (Ok (Some []), x')
               else (Err (EOS e), x')
           | (Err y, x') => (Err y, x')
           end.

(** seek(), rsfileio_abstract.py:344-352 *)
Definition v_check_closed (v : wio) : W unit := if v_closed v then raise EValue else ret tt.
Definition v_seek (v : wio) (offset whence : Z) : W Z := v_check_closed v ;; v_inner_seek offset whence.

(** rsfileio_windows.py:216-235 *)
Definition v_set_end (v : wio) (size : Z) : W unit :=
  if size <? 0 then raise EAssert
  else
    old_pos <- v_inner_tell ;;
    v_seek v size 0 ;;
    set_end_of_file ;;
    v_inner_seek old_pos 0 ;;
    ret tt.
Definition v_inner_reduce (v : wio) (size : Z) : W unit := v_set_end v size.
Definition v_inner_extend (v : wio) (size : Z) (zero_fill : bool) : W unit :=
  if size <? 0 then raise EAssert
  else if zero_fill then ret tt else v_set_end v size.

(** rsfileio_windows.py:388-423, for files (_use_nonblocking_pipe_write_hack is false). *)
Definition v_inner_write (v : wio) (b : list byte) : W (option Z) :=
  (if v_append v then v_inner_seek 0 2 ;; ret tt else ret tt) ;;
  cur_pos <- v_inner_tell ;;
  size <- v_inner_size ;;
  (if size <? cur_pos then v_inner_extend v cur_pos true else ret tt) ;;
  n <- write_file b ;;
  if n =? 0 then ret None else ret (Some n).

(** * Public methods, rsfileio_abstract.py *)

(** _pyio_py312_backup.py:435-490 *)
Definition v_check_readable (v : wio) : W unit :=
  v_check_closed v ;; if v_readable v then ret tt else raise EUnsupported.
Definition v_check_writable (v : wio) : W unit :=
  v_check_closed v ;; if v_writable v then ret tt else raise EUnsupported.

(** rsfileio_abstract.py:335-342, 497-504 *)
Definition v_size (v : wio) : W Z := v_check_closed v ;; v_inner_size.
Definition v_tell (v : wio) : W Z := v_check_closed v ;; v_inner_tell.
Definition v_flush (v : wio) : W unit := v_check_closed v.

(** readall(), rsfileio_abstract.py:354-370 *)
Fixpoint v_readall_loop (fuel : nat) (v : wio) (acc : list byte) : W (option (list byte)) :=
  match fuel with
  | O => raise EFuel
  | S k =>
      v_check_closed v ;; v_check_readable v ;;
      d <- v_inner_read DEFAULT_BUFFER_SIZE ;;
      match d with
      | Some ((_ :: _) as b) => v_readall_loop k v (acc ++ b)
      | _ => ret (match acc with [] => d | _ => Some acc end)
      end
  end.
(** The bound: every iteration but the last reads a byte. *)
Definition v_readall (v : wio) : W (option (list byte)) :=
  x <- get ;; v_readall_loop (S (length (x_data x))) v [].

(** read(n) and readinto, rsfileio_abstract.py:372-413 *)
Definition v_read (v : wio) (n : Z) : W (option (list byte)) :=
  v_check_closed v ;; v_check_readable v ;;
  if n <? 0 then v_readall v else v_inner_read n.
Definition v_readinto (v : wio) (n : Z) : W (list byte) :=
  v_check_closed v ;; v_check_readable v ;;
  d <- v_inner_read n ;;
  match d with None => raise EType | Some b => ret b end.

(** write(), rsfileio_abstract.py:415-454 *)
Definition v_write (v : wio) (b : list byte) : W (option Z) :=
  v_check_closed v ;; v_check_writable v ;;
  r <- v_inner_write v b ;;
  match r with
  | None => ret None
  | Some n =>
      if negb (is_nil b) && (n =? 0) then raise EAssert
      else if (n <? 0) || (Z.of_nat (length b) <? n) then raise ERuntime
      else ret (Some n)
  end.

(** The loop of rsfileio_abstract.py:487-489 *)
Fixpoint v_write_padding (q : nat) (v : wio) : W unit :=
  match q with
  | O => ret tt
  | S k => v_inner_write v (repeat 0 (Z.to_nat DEFAULT_BUFFER_SIZE)) ;; v_write_padding k v
  end.
(** rsfileio_abstract.py:480-493 *)
Definition v_zero_fill (v : wio) (size current_size : Z) : W unit :=
  if negb (current_size <? size) then raise EAssert
  else
    old_pos <- v_inner_tell ;;
    v_inner_seek current_size 0 ;;
    let n := size - current_size in
    v_write_padding (Z.to_nat (n / DEFAULT_BUFFER_SIZE)) v ;;
    c <- v_inner_write v (repeat 0 (Z.to_nat (n mod DEFAULT_BUFFER_SIZE))) ;;
    match c with
    | Some k => if k =? n mod DEFAULT_BUFFER_SIZE then v_inner_seek old_pos 0 ;; ret tt else raise EAssert
    | None => raise EAssert
    end.
(** truncate(size, zero_fill), rsfileio_abstract.py:456-495 *)
Definition v_truncate (v : wio) (size : option Z) (zero_fill : bool) : W Z :=
  v_check_closed v ;; v_check_writable v ;;
  sz <- (match size with
         | None => v_tell v
         | Some s => if s <? 0 then raise (EOS EINVAL) else ret s
         end) ;;
  cur <- v_size v ;;
  (if sz =? cur then ret tt
   else if sz <? cur then v_inner_reduce v sz
   else
     v_inner_extend v sz zero_fill ;;
     cur2 <- v_size v ;;
     if cur2 =? sz then ret tt else v_zero_fill v sz cur2) ;;
  v_size v.
