(** Model of the buffered streams on windows: the classes of M_Buffered (rsfile_streams.py:33-74 and 122-147 over _pyio, read in
    rstest/stdlib/_pyio_py312_backup.py, "pyio" below) on the raw stream of M_Windows.  Used by one thread at a time.
    No proofs here. *)
From Coq Require Import ZArith List Bool Ascii.
From Verif Require Import M_Base M_Registry M_World M_Raw M_Windows M_Buffered.
Import ListNotations.
Open Scope Z_scope.

(** The attributes _raw, buffer_size, _read_buf, _read_pos, _write_buf (pyio:1037-1055, 1235-1244), and the open file. *)
Record vstate : Type := mkVB {
  vb_io : wio; vb_size : Z; vb_rbuf : list byte; vb_rpos : nat; vb_wbuf : list byte; vb_x : wfile }.

(** Bytes the file has: bounds the loops below. *)
Definition v_fuel (v : wio) : W nat := fun x => (Ok (length (x_data x)), x).

Definition vset_rbuf (b : vstate) (l : list byte) (p : nat) : vstate :=
  mkVB (vb_io b) (vb_size b) l p (vb_wbuf b) (vb_x b).
Definition vset_wbuf (b : vstate) (l : list byte) : vstate :=
  mkVB (vb_io b) (vb_size b) (vb_rbuf b) (vb_rpos b) l (vb_x b).
Definition vset_x (b : vstate) (w : wfile) : vstate :=
  mkVB (vb_io b) (vb_size b) (vb_rbuf b) (vb_rpos b) (vb_wbuf b) w.

Definition VB (A : Type) : Type := comp vstate A.

(** A call of a method of the raw stream. *)
Definition on_v {A} (m : wio -> W A) : VB A :=
  fun b => let '(r, w) := m (vb_io b) (vb_x b) in (r, vset_x b w).

(** Just built: pyio:1037-1048, 1235-1244, 1413-1416 *)
Definition vb_fresh (f : wio) (size : Z) (w : wfile) : vstate := mkVB f size [] 0 [] w.

(** self.closed is raw.closed, pyio:849-851 *)
Definition vb_check_closed : VB unit := fun b => if v_closed (vb_io b) then (Err EValue, b) else (Ok tt, b).

(** Unread bytes of the read buffer. *)
Definition vb_unread (b : vstate) : list byte := skipn (vb_rpos b) (vb_rbuf b).

(** _reset_read_buf, pyio:1053-1055 *)
Definition vb_reset_read_buf : VB unit := fun b => (Ok tt, vset_rbuf b [] 0).

(** * Writing side *)

(** The loop of _flush_unlocked, pyio:1291-1303.  One byte at least goes at each turn. *)
Fixpoint vb_flush_loop (fuel : nat) : VB unit :=
  match fuel with
  | O => raise EFuel
  | S k => fun b =>
      match vb_wbuf b with
      | [] => (Ok tt, b)
      | buf =>
          (n <- on_v (fun f => v_write f buf) ;;
           match n with
           | None => raise (EBlocking 0)
           | Some n =>
               if (Z.of_nat (length buf) <? n) || (n <? 0) then raise (EOS 0)
               else (fun b => (Ok tt, vset_wbuf b (skipn (Z.to_nat n) (vb_wbuf b)))) ;; vb_flush_loop k
           end) b
      end
  end.
(** _flush_unlocked, pyio:1288-1303 *)
Definition vb_flush_unlocked : VB unit :=
  vb_check_closed ;; fun b => vb_flush_loop (S (length (vb_wbuf b))) b.

(** flush(): pyio:1284-1286 for writers, 819-822 for readers *)
Definition vb_flush (k : bkind) : VB unit :=
  match k with
  | BReader => vb_check_closed ;; on_v v_flush
  | _ => vb_flush_unlocked
  end.

(** BufferedWriter.write, pyio:1249-1275 *)
Definition vb_writer_write (d : list byte) : VB Z :=
  vb_check_closed ;;
  (fun b => if vb_size b <? Z.of_nat (length (vb_wbuf b)) then vb_flush_unlocked b else (Ok tt, b)) ;;
  (fun b => (Ok tt, vset_wbuf b (vb_wbuf b ++ d))) ;;
  fun b =>
    let written := Z.of_nat (length d) in
    if vb_size b <? Z.of_nat (length (vb_wbuf b)) then
      match vb_flush_unlocked b with
      | (Err (EBlocking x), b1) =>
          if vb_size b1 <? Z.of_nat (length (vb_wbuf b1)) then
            let overage := Z.of_nat (length (vb_wbuf b1)) - vb_size b1 in
            (Err (EBlocking (written - overage)), vset_wbuf b1 (firstn (Z.to_nat (vb_size b1)) (vb_wbuf b1)))
          else (Ok written, b1)
      | (Err e, b1) => (Err e, b1)
      | (Ok _, b1) => (Ok written, b1)
      end
    else (Ok written, b).

(** The raw stream is ahead by what is read but not consumed: [self.raw.seek(self._read_pos -
    len(self._read_buf), 1)], pyio:1425, 1473 *)
Definition vb_undo_readahead : VB unit :=
  fun b => (on_v (fun f => v_seek f (Z.of_nat (vb_rpos b) - Z.of_nat (length (vb_rbuf b))) 1) ;; ret tt) b.

(** write(): pyio:1469-1475, 1249-1275; refused by readers (pyio:753-762) *)
Definition vb_write (k : bkind) (d : list byte) : VB Z :=
  match k with
  | BReader => raise EUnsupported
  | BWriter => vb_writer_write d
  | BRandom =>
      (fun b => match vb_rbuf b with
                | [] => (Ok tt, b)
                | _ => (vb_undo_readahead ;; vb_reset_read_buf) b
                end) ;;
      vb_writer_write d
  end.

(** * Positions *)

(** _BufferedIOMixin.seek and tell, pyio:790-800 *)
Definition vb_mixin_seek (pos wh : Z) : VB Z :=
  n <- on_v (fun f => v_seek f pos wh) ;; if n <? 0 then raise (EOS 0) else ret n.
Definition vb_mixin_tell : VB Z :=
  n <- on_v v_tell ;; if n <? 0 then raise (EOS 0) else ret n.

(** seek(): pyio:1215-1223 (reader), 1308-1313 (writer), 1418-1433 (random) *)
Definition vb_seek (k : bkind) (pos wh : Z) : VB Z :=
  if negb (valid_whence wh) then raise EValue
  else match k with
  | BReader =>
      vb_check_closed ;;
      (fun b => (n <- vb_mixin_seek (if wh =? 1 then pos - Z.of_nat (length (vb_unread b)) else pos) wh ;;
                 vb_reset_read_buf ;; ret n) b)
  | BWriter => vb_flush_unlocked ;; vb_mixin_seek pos wh
  | BRandom =>
      vb_flush_unlocked ;;
      (fun b => match vb_rbuf b with [] => (Ok tt, b) | _ => vb_undo_readahead b end) ;;
      n <- on_v (fun f => v_seek f pos wh) ;;
      vb_reset_read_buf ;;
      if n <? 0 then raise (EOS 0) else ret n
  end.

(** tell(): pyio:1211-1213, 1305-1306, 1435-1439 *)
Definition vb_reader_tell : VB Z :=
  n <- vb_mixin_tell ;;
  fun b => (Ok (Z.max (n - Z.of_nat (length (vb_rbuf b)) + Z.of_nat (vb_rpos b)) 0), b).
Definition vb_writer_tell : VB Z :=
  n <- vb_mixin_tell ;; fun b => (Ok (n + Z.of_nat (length (vb_wbuf b))), b).
Definition vb_tell (k : bkind) : VB Z :=
  match k with
  | BReader => vb_reader_tell
  | BWriter => vb_writer_tell
  | BRandom => fun b => match vb_wbuf b with [] => vb_reader_tell b | _ => vb_writer_tell b end
  end.

(** truncate(): pyio:802-815 with writable() False (reader: IOBase.writable, since
    rsfile_streams.py:120-121 removed _BufferedIOMixin.writable), 1277-1282, 1441-1445 *)
Definition vb_writer_truncate (pos : option Z) : VB Z :=
  vb_flush_unlocked ;;
  p <- (match pos with None => on_v v_tell | Some p => ret p end) ;;
  on_v (fun f => v_truncate f (Some p) true).
Definition vb_truncate (k : bkind) (pos : option Z) : VB Z :=
  match k with
  | BReader => vb_check_closed ;; raise EUnsupported
  | BWriter => vb_writer_truncate pos
  | BRandom =>
      p <- (match pos with None => vb_tell BRandom | Some p => ret p end) ;;
      vb_writer_truncate (Some p)
  end.

(** * Reading side *)

(** Bytes the raw stream can still deliver bound the loops below. *)
Definition vb_read_fuel : VB nat := n <- on_v v_fuel ;; ret (S n).

(** The loop of _read_unlocked, pyio:1107-1113.  Returns the joined chunks and
    nodata_val. *)
Fixpoint vb_fill_loop (fuel : nat) (wanted n : Z) (out : list byte) : VB (list byte * option (list byte)) :=
  match fuel with
  | O => raise EFuel
  | S k =>
      if Z.of_nat (length out) <? n then
        c <- on_v (fun f => v_read f (wanted)) ;;
        match c with
        | None => ret (out, None)
        | Some [] => ret (out, Some [])
        | Some c => vb_fill_loop k wanted n (out ++ c)
        end
      else ret (out, Some [])
  end.

(** _read_unlocked, pyio:1070-1120.  None as result: would block, nothing read. *)
Definition vb_read_unlocked (n : option Z) : VB (option (list byte)) :=
  fun b =>
    let all := match n with None => true | Some k => k =? -1 end in
    if all then
      (vb_reset_read_buf ;;
       c <- on_v v_readall ;;
       match c with
       | None => ret (match vb_unread b with [] => None | l => Some l end)
       | Some c => ret (Some (vb_unread b ++ c))
       end) b
    else
      let n := match n with Some k => k | None => 0 end in
      if n <=? Z.of_nat (length (vb_unread b)) then
        (* [n] >= 0 here: read() refused n < -1 and read1 passes a length *)
        (Ok (Some (firstn (Z.to_nat n) (vb_unread b))), vset_rbuf b (vb_rbuf b) (vb_rpos b + Z.to_nat n))
      else
        (fuel <- vb_read_fuel ;;
         r <- vb_fill_loop fuel (Z.max (vb_size b) n) n (vb_unread b) ;;
         let '(out, nodata) := r in
         let m := Z.to_nat (Z.min n (Z.of_nat (length out))) in
         (fun b => (Ok tt, vset_rbuf b (skipn m out) 0)) ;;
         ret (match out with [] => nodata | _ => Some (firstn m out) end)) b.

(** BufferedReader.read, pyio:1057-1068 *)
Definition vb_reader_read (n : option Z) : VB (option (list byte)) :=
  if (match n with Some k => k <? -1 | None => false end) then raise EValue
  else vb_read_unlocked n.
(** read(): pyio:1447-1451 for BufferedRandom; refused by writers (pyio:687-705) *)
Definition vb_read (k : bkind) (n : option Z) : VB (option (list byte)) :=
  match k with
  | BReader => vb_reader_read n
  | BWriter => raise EUnsupported
  | BRandom => vb_flush_unlocked ;; vb_reader_read (Some (match n with None => -1 | Some z => z end))
  end.

(** _peek_unlocked, pyio:1133-1142 *)
Definition vb_peek_unlocked (n : Z) : VB (list byte) :=
  (fun b =>
     let want := Z.min n (vb_size b) in
     let have := Z.of_nat (length (vb_unread b)) in
     if (have <? want) || (have <=? 0) then
       (c <- on_v (fun f => v_read f ((vb_size b - have))) ;;
        match c with
        | Some ((_ :: _) as c) => fun b => (Ok tt, vset_rbuf b (vb_unread b ++ c) 0)
        | _ => ret tt
        end) b
     else (Ok tt, b)) ;;
  fun b => (Ok (vb_unread b), b).
(** peek(): pyio:1122-1131, 1457-1459; BufferedWriter has none (AttributeError). *)
Definition vb_reader_peek (n : Z) : VB (list byte) := vb_check_closed ;; vb_peek_unlocked n.
Definition vb_peek (k : bkind) (n : Z) : VB (list byte) :=
  match k with
  | BReader => vb_reader_peek n
  | BWriter => raise EKey
  | BRandom => vb_flush_unlocked ;; vb_reader_peek n
  end.

(** read1(): pyio:1144-1158, 1461-1463 *)
Definition vb_reader_read1 (n : Z) : VB (option (list byte)) :=
  vb_check_closed ;;
  fun b =>
    let n := if n <? 0 then vb_size b else n in
    if n =? 0 then (Ok (Some []), b)
    else (vb_peek_unlocked 1 ;;
          fun b => vb_read_unlocked (Some (Z.min n (Z.of_nat (length (vb_unread b))))) b) b.
Definition vb_read1 (k : bkind) (n : Z) : VB (option (list byte)) :=
  match k with
  | BReader => vb_reader_read1 n
  | BWriter => raise EUnsupported
  | BRandom => vb_flush_unlocked ;; vb_reader_read1 n
  end.

(** _readinto, pyio:1163-1209, for a buffer of [n] bytes: the bytes stored so far
    are [out].  Storing more bytes than the slice [written:written+avail] has room for is a
    ValueError of memoryview.  [fuel]: each turn stores a byte, or fills the read
    buffer, or stops. *)
Fixpoint vb_readinto_loop (fuel : nat) (n : Z) (read1 : bool) (out : list byte) : VB (list byte) :=
  match fuel with
  | O => raise EFuel
  | S k =>
      if Z.of_nat (length out) <? n then
        fun b =>
          let avail := Z.min (Z.of_nat (length (vb_unread b))) n in
          if n - Z.of_nat (length out) <? avail then (Err EValue, b)
          else
            let out1 := out ++ firstn (Z.to_nat avail) (vb_unread b) in
            let b1 := vset_rbuf b (vb_rbuf b) (vb_rpos b + Z.to_nat avail) in
            if negb (avail =? 0) && (Z.of_nat (length out1) =? n) then (Ok out1, b1)
            else
              let again (out : list byte) : VB (list byte) :=
                if read1 && negb (is_nil out) then ret out else vb_readinto_loop k n read1 out in
              let room := n - Z.of_nat (length out1) in
              (if vb_size b <? room then
                 d <- on_v (fun f => v_readinto f room) ;;
                 match d with
                 | [] => ret out1
                 | _ => again (out1 ++ d)
                 end
               else if negb (read1 && negb (is_nil out1)) then
                 p <- vb_peek_unlocked 1 ;;
                 match p with
                 | [] => ret out1
                 | _ => again out1
                 end
               else again out1) b1
      else ret out
  end.
Definition vb_reader_readinto (n : Z) (read1 : bool) : VB (list byte) :=
  vb_check_closed ;;
  if n =? 0 then ret []
  else fuel <- vb_read_fuel ;; fun b => vb_readinto_loop (2 * fuel + 2)%nat n read1 [] b.
(** readinto(), readinto1(): pyio:713-736, 1453-1455, 1465-1467; a writer's read() is refused *)
Definition vb_readinto (k : bkind) (n : Z) (read1 : bool) : VB (list byte) :=
  match k with
  | BReader => vb_reader_readinto n read1
  | BWriter => raise EUnsupported
  | BRandom => vb_flush_unlocked ;; vb_reader_readinto n read1
  end.

(** readline(), IOBase, pyio:524-564, for classes having peek.  Each turn but the last
    gets a byte. *)
Fixpoint vb_readline_loop (fuel : nat) (k : bkind) (size : Z) (res : list byte) : VB (list byte) :=
  match fuel with
  | O => raise EFuel
  | S fu =>
      if (size <? 0) || (Z.of_nat (length res) <? size) then
        ahead <- vb_peek k 1 ;;
        let n := match ahead with
                 | [] => 1
                 | _ => let n := match newline_len ahead with
                                 | O => Z.of_nat (length ahead)
                                 | m => Z.of_nat m
                                 end in
                        if 0 <=? size then Z.min n size else n
                 end in
        d <- vb_read k (Some n) ;;
        match d with
        | None | Some [] => ret res
        | Some d => if last d 0 =? 10 then ret (res ++ d) else vb_readline_loop fu k size (res ++ d)
        end
      else ret res
  end.
(** BufferedWriter has no peek; its read(1) is refused. *)
Definition vb_readline (k : bkind) (size : Z) : VB (list byte) :=
  match k with
  | BWriter => if size =? 0 then ret [] else raise EUnsupported
  | _ => fuel <- vb_read_fuel ;; fun b => vb_readline_loop (fuel + length (vb_unread b) + length (vb_wbuf b) + 1)%nat k size [] b
  end.

(** * The rsfile additions, rsfile_streams.py:33-58 *)

(** _reset_buffers, rsfile_streams.py:34-35 *)
Definition vb_reset_buffers (k : bkind) : VB unit := vb_seek k 0 1 ;; ret tt.
(** size(), 43-45 *)
Definition vb_fsize (k : bkind) : VB Z := vb_flush k ;; on_v v_size.
