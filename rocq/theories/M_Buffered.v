(** Model of the buffered streams: rsfile_streams.py:33-74 and 122-147 on top of
    BufferedReader, BufferedWriter and BufferedRandom of _pyio (the pure-Python io module
    rsfile is built on, rsfile_definitions.py:26), read in
    rstest/stdlib/_pyio_py312_backup.py ("pyio" below).  Used by one thread at
    a time: the locks _read_lock and _write_lock are in M_Threads.  No proofs here. *)
From Coq Require Import ZArith List Bool Ascii.
From Verif Require Import M_Base M_Modes M_Registry M_Kernel M_World M_Raw.
Import ListNotations.
Open Scope Z_scope.

(** RSBufferedReader, RSBufferedWriter, RSBufferedRandom, rsfile_streams.py:124-143 *)
Inductive bkind : Type := BReader | BWriter | BRandom.

(** The attributes _raw, buffer_size, _read_buf, _read_pos, _write_buf (pyio:1037-1055,
    1235-1244), and the world. *)
Record bstate : Type := mkB {
  b_raw : rawio; b_size : Z; b_rbuf : list byte; b_rpos : nat; b_wbuf : list byte; b_w : world }.

Definition set_rbuf (b : bstate) (l : list byte) (p : nat) : bstate :=
  mkB (b_raw b) (b_size b) l p (b_wbuf b) (b_w b).
Definition set_wbuf (b : bstate) (l : list byte) : bstate :=
  mkB (b_raw b) (b_size b) (b_rbuf b) (b_rpos b) l (b_w b).
Definition set_world (b : bstate) (w : world) : bstate :=
  mkB (b_raw b) (b_size b) (b_rbuf b) (b_rpos b) (b_wbuf b) w.

Definition B (A : Type) : Type := comp bstate A.

(** A call of a method of the raw stream. *)
Definition on_raw {A} (m : rawio -> M A) : B A :=
  fun b => let '(r, w) := m (b_raw b) (b_w b) in (r, set_world b w).

(** Just built: pyio:1037-1048, 1235-1244, 1413-1416 *)
Definition fresh (f : rawio) (size : Z) (w : world) : bstate := mkB f size [] 0 [] w.

(** self.closed is raw.closed, pyio:849-851 *)
Definition b_check_closed : B unit := fun b => if f_closed (b_raw b) then (Err EValue, b) else (Ok tt, b).

(** Unread bytes of the read buffer. *)
Definition unread (b : bstate) : list byte := skipn (b_rpos b) (b_rbuf b).

(** _reset_read_buf, pyio:1053-1055 *)
Definition reset_read_buf : B unit := fun b => (Ok tt, set_rbuf b [] 0).

(** * Writing side *)

(** The loop of _flush_unlocked, pyio:1291-1303.  One byte at least goes at each turn. *)
Fixpoint flush_loop (fuel : nat) : B unit :=
  match fuel with
  | O => raise EFuel
  | S k => fun b =>
      match b_wbuf b with
      | [] => (Ok tt, b)
      | buf =>
          (n <- on_raw (fun f => raw_write f buf) ;;
           match n with
           | None => raise (EBlocking 0)
           | Some n =>
               if (Z.of_nat (length buf) <? n) || (n <? 0) then raise (EOS 0)
               else (fun b => (Ok tt, set_wbuf b (skipn (Z.to_nat n) (b_wbuf b)))) ;; flush_loop k
           end) b
      end
  end.
(** _flush_unlocked, pyio:1288-1303 *)
Definition flush_unlocked : B unit :=
  b_check_closed ;; fun b => flush_loop (S (length (b_wbuf b))) b.

(** flush(): pyio:1284-1286 for writers, 819-822 for readers *)
Definition b_flush (k : bkind) : B unit :=
  match k with
  | BReader => b_check_closed ;; on_raw raw_flush
  | _ => flush_unlocked
  end.

(** BufferedWriter.write, pyio:1249-1275 *)
Definition writer_write (d : list byte) : B Z :=
  b_check_closed ;;
  (fun b => if b_size b <? Z.of_nat (length (b_wbuf b)) then flush_unlocked b else (Ok tt, b)) ;;
  (fun b => (Ok tt, set_wbuf b (b_wbuf b ++ d))) ;;
  fun b =>
    let written := Z.of_nat (length d) in
    if b_size b <? Z.of_nat (length (b_wbuf b)) then
      match flush_unlocked b with
      | (Err (EBlocking x), b1) =>
          if b_size b1 <? Z.of_nat (length (b_wbuf b1)) then
            let overage := Z.of_nat (length (b_wbuf b1)) - b_size b1 in
            (Err (EBlocking (written - overage)), set_wbuf b1 (firstn (Z.to_nat (b_size b1)) (b_wbuf b1)))
          else (Ok written, b1)
      | (Err e, b1) => (Err e, b1)
      | (Ok _, b1) => (Ok written, b1)
      end
    else (Ok written, b).

(** The raw stream is ahead by what is read but not consumed: [self.raw.seek(self._read_pos -
    len(self._read_buf), 1)], pyio:1425, 1473 *)
Definition undo_readahead : B unit :=
  fun b => (on_raw (fun f => raw_seek f (Z.of_nat (b_rpos b) - Z.of_nat (length (b_rbuf b))) 1) ;; ret tt) b.

(** write(): pyio:1469-1475, 1249-1275; refused by readers (pyio:753-762) *)
Definition b_write (k : bkind) (d : list byte) : B Z :=
  match k with
  | BReader => raise EUnsupported
  | BWriter => writer_write d
  | BRandom =>
      (fun b => match b_rbuf b with
                | [] => (Ok tt, b)
                | _ => (undo_readahead ;; reset_read_buf) b
                end) ;;
      writer_write d
  end.

(** * Positions *)

(** valid_seek_flags, pyio:21-24, without the SEEK_HOLE and SEEK_DATA extensions *)
Definition valid_whence (wh : Z) : bool := (wh =? 0) || (wh =? 1) || (wh =? 2).

(** _BufferedIOMixin.seek and tell, pyio:790-800 *)
Definition mixin_seek (pos wh : Z) : B Z :=
  n <- on_raw (fun f => raw_seek f pos wh) ;; if n <? 0 then raise (EOS 0) else ret n.
Definition mixin_tell : B Z :=
  n <- on_raw raw_tell ;; if n <? 0 then raise (EOS 0) else ret n.

(** seek(): pyio:1215-1223 (reader), 1308-1313 (writer), 1418-1433 (random) *)
Definition b_seek (k : bkind) (pos wh : Z) : B Z :=
  if negb (valid_whence wh) then raise EValue
  else match k with
  | BReader =>
      b_check_closed ;;
      (fun b => (n <- mixin_seek (if wh =? 1 then pos - Z.of_nat (length (unread b)) else pos) wh ;;
                 reset_read_buf ;; ret n) b)
  | BWriter => flush_unlocked ;; mixin_seek pos wh
  | BRandom =>
      flush_unlocked ;;
      (fun b => match b_rbuf b with [] => (Ok tt, b) | _ => undo_readahead b end) ;;
      n <- on_raw (fun f => raw_seek f pos wh) ;;
      reset_read_buf ;;
      if n <? 0 then raise (EOS 0) else ret n
  end.

(** tell(): pyio:1211-1213, 1305-1306, 1435-1439 *)
Definition reader_tell : B Z :=
  n <- mixin_tell ;;
  fun b => (Ok (Z.max (n - Z.of_nat (length (b_rbuf b)) + Z.of_nat (b_rpos b)) 0), b).
Definition writer_tell : B Z :=
  n <- mixin_tell ;; fun b => (Ok (n + Z.of_nat (length (b_wbuf b))), b).
Definition b_tell (k : bkind) : B Z :=
  match k with
  | BReader => reader_tell
  | BWriter => writer_tell
  | BRandom => fun b => match b_wbuf b with [] => reader_tell b | _ => writer_tell b end
  end.

(** truncate(): pyio:802-815 with writable() False (reader: IOBase.writable, since
    rsfile_streams.py:120-121 removed _BufferedIOMixin.writable), 1277-1282, 1441-1445 *)
Definition writer_truncate (pos : option Z) : B Z :=
  flush_unlocked ;;
  p <- (match pos with None => on_raw raw_tell | Some p => ret p end) ;;
  on_raw (fun f => raw_truncate f (Some p)).
Definition b_truncate (k : bkind) (pos : option Z) : B Z :=
  match k with
  | BReader => b_check_closed ;; raise EUnsupported
  | BWriter => writer_truncate pos
  | BRandom =>
      p <- (match pos with None => b_tell BRandom | Some p => ret p end) ;;
      writer_truncate (Some p)
  end.

(** * Reading side *)

(** Bytes the raw stream can still deliver bound the loops below. *)
Definition read_fuel : B nat := n <- on_raw readall_fuel ;; ret (S n).

(** The loop of _read_unlocked, pyio:1107-1113.  Returns the joined chunks and
    nodata_val. *)
Fixpoint fill_loop (fuel : nat) (wanted n : Z) (out : list byte) : B (list byte * option (list byte)) :=
  match fuel with
  | O => raise EFuel
  | S k =>
      if Z.of_nat (length out) <? n then
        c <- on_raw (fun f => raw_read f (Some wanted)) ;;
        match c with
        | None => ret (out, None)
        | Some [] => ret (out, Some [])
        | Some c => fill_loop k wanted n (out ++ c)
        end
      else ret (out, Some [])
  end.

(** _read_unlocked, pyio:1070-1120.  None as result: would block, nothing read. *)
Definition read_unlocked (n : option Z) : B (option (list byte)) :=
  fun b =>
    let all := match n with None => true | Some k => k =? -1 end in
    if all then
      (reset_read_buf ;;
       c <- on_raw raw_readall ;;
       match c with
       | None => ret (match unread b with [] => None | l => Some l end)
       | Some c => ret (Some (unread b ++ c))
       end) b
    else
      let n := match n with Some k => k | None => 0 end in
      if n <=? Z.of_nat (length (unread b)) then
        (* [n] >= 0 here: read() refused n < -1 and read1 passes a length *)
        (Ok (Some (firstn (Z.to_nat n) (unread b))), set_rbuf b (b_rbuf b) (b_rpos b + Z.to_nat n))
      else
        (fuel <- read_fuel ;;
         r <- fill_loop fuel (Z.max (b_size b) n) n (unread b) ;;
         let '(out, nodata) := r in
         let m := Z.to_nat (Z.min n (Z.of_nat (length out))) in
         (fun b => (Ok tt, set_rbuf b (skipn m out) 0)) ;;
         ret (match out with [] => nodata | _ => Some (firstn m out) end)) b.

(** BufferedReader.read, pyio:1057-1068 *)
Definition reader_read (n : option Z) : B (option (list byte)) :=
  if (match n with Some k => k <? -1 | None => false end) then raise EValue
  else read_unlocked n.
(** read(): pyio:1447-1451 for BufferedRandom; refused by writers (pyio:687-705) *)
Definition b_read (k : bkind) (n : option Z) : B (option (list byte)) :=
  match k with
  | BReader => reader_read n
  | BWriter => raise EUnsupported
  | BRandom => flush_unlocked ;; reader_read (Some (match n with None => -1 | Some z => z end))
  end.

(** _peek_unlocked, pyio:1133-1142 *)
Definition peek_unlocked (n : Z) : B (list byte) :=
  (fun b =>
     let want := Z.min n (b_size b) in
     let have := Z.of_nat (length (unread b)) in
     if (have <? want) || (have <=? 0) then
       (c <- on_raw (fun f => raw_read f (Some (b_size b - have))) ;;
        match c with
        | Some ((_ :: _) as c) => fun b => (Ok tt, set_rbuf b (unread b ++ c) 0)
        | _ => ret tt
        end) b
     else (Ok tt, b)) ;;
  fun b => (Ok (unread b), b).
(** peek(): pyio:1122-1131, 1457-1459; BufferedWriter has none (AttributeError). *)
Definition reader_peek (n : Z) : B (list byte) := b_check_closed ;; peek_unlocked n.
Definition b_peek (k : bkind) (n : Z) : B (list byte) :=
  match k with
  | BReader => reader_peek n
  | BWriter => raise EKey
  | BRandom => flush_unlocked ;; reader_peek n
  end.

(** read1(): pyio:1144-1158, 1461-1463 *)
Definition reader_read1 (n : Z) : B (option (list byte)) :=
  b_check_closed ;;
  fun b =>
    let n := if n <? 0 then b_size b else n in
    if n =? 0 then (Ok (Some []), b)
    else (peek_unlocked 1 ;;
          fun b => read_unlocked (Some (Z.min n (Z.of_nat (length (unread b))))) b) b.
Definition b_read1 (k : bkind) (n : Z) : B (option (list byte)) :=
  match k with
  | BReader => reader_read1 n
  | BWriter => raise EUnsupported
  | BRandom => flush_unlocked ;; reader_read1 n
  end.

(** _readinto, pyio:1163-1209, for a buffer of [n] bytes: the bytes stored so far
    are [out].  Storing more bytes than the slice [written:written+avail] has room for is a
    ValueError of memoryview.  [fuel]: each turn stores a byte, or fills the read
    buffer, or stops. *)
Fixpoint readinto_loop (fuel : nat) (n : Z) (read1 : bool) (out : list byte) : B (list byte) :=
  match fuel with
  | O => raise EFuel
  | S k =>
      if Z.of_nat (length out) <? n then
        fun b =>
          let avail := Z.min (Z.of_nat (length (unread b))) n in
          if n - Z.of_nat (length out) <? avail then (Err EValue, b)
          else
            let out1 := out ++ firstn (Z.to_nat avail) (unread b) in
            let b1 := set_rbuf b (b_rbuf b) (b_rpos b + Z.to_nat avail) in
            if negb (avail =? 0) && (Z.of_nat (length out1) =? n) then (Ok out1, b1)
            else
              let again (out : list byte) : B (list byte) :=
                if read1 && negb (is_nil out) then ret out else readinto_loop k n read1 out in
              let room := n - Z.of_nat (length out1) in
              (if b_size b <? room then
                 d <- on_raw (fun f => raw_readinto f room) ;;
                 match d with
                 | [] => ret out1
                 | _ => again (out1 ++ d)
                 end
               else if negb (read1 && negb (is_nil out1)) then
                 p <- peek_unlocked 1 ;;
                 match p with
                 | [] => ret out1
                 | _ => again out1
                 end
               else again out1) b1
      else ret out
  end.
Definition reader_readinto (n : Z) (read1 : bool) : B (list byte) :=
  b_check_closed ;;
  if n =? 0 then ret []
  else fuel <- read_fuel ;; fun b => readinto_loop (2 * fuel + 2)%nat n read1 [] b.
(** readinto(), readinto1(): pyio:713-736, 1453-1455, 1465-1467; a writer's read() is refused *)
Definition b_readinto (k : bkind) (n : Z) (read1 : bool) : B (list byte) :=
  match k with
  | BReader => reader_readinto n read1
  | BWriter => raise EUnsupported
  | BRandom => flush_unlocked ;; reader_readinto n read1
  end.

(** Position of the first newline, as readahead.find(b"\n") + 1 (0: none). *)
Fixpoint newline_len (l : list byte) : nat :=
  match l with
  | [] => 0
  | x :: r => if x =? 10 then 1 else match newline_len r with O => O | S k => S (S k) end
  end.

(** readline(), IOBase, pyio:524-564, for classes having peek.  Each turn but the last
    gets a byte. *)
Fixpoint readline_loop (fuel : nat) (k : bkind) (size : Z) (res : list byte) : B (list byte) :=
  match fuel with
  | O => raise EFuel
  | S fu =>
      if (size <? 0) || (Z.of_nat (length res) <? size) then
        ahead <- b_peek k 1 ;;
        let n := match ahead with
                 | [] => 1
                 | _ => let n := match newline_len ahead with
                                 | O => Z.of_nat (length ahead)
                                 | m => Z.of_nat m
                                 end in
                        if 0 <=? size then Z.min n size else n
                 end in
        d <- b_read k (Some n) ;;
        match d with
        | None | Some [] => ret res
        | Some d => if last d 0 =? 10 then ret (res ++ d) else readline_loop fu k size (res ++ d)
        end
      else ret res
  end.
(** BufferedWriter has no peek; its read(1) is refused. *)
Definition b_readline (k : bkind) (size : Z) : B (list byte) :=
  match k with
  | BWriter => if size =? 0 then ret [] else raise EUnsupported
  | _ => fuel <- read_fuel ;; fun b => readline_loop (fuel + length (unread b) + length (b_wbuf b) + 1)%nat k size [] b
  end.

(** * The rsfile additions, rsfile_streams.py:33-58 *)

(** _reset_buffers, rsfile_streams.py:34-35 *)
Definition reset_buffers (k : bkind) : B unit := b_seek k 0 1 ;; ret tt.
(** size(), 43-45 *)
Definition b_fsize (k : bkind) : B Z := b_flush k ;; on_raw raw_size.
(** sync(), 47-49 *)
Definition b_sync (has_fdatasync : bool) (k : bkind) (metadata full_flush : bool) : B unit :=
  b_flush k ;; on_raw (fun f => raw_sync has_fdatasync f metadata full_flush).
(** lock_file(), 51-53, and unlock_file(), 55-57 *)
Definition b_lock_file (k : bkind) (timeout length offset : parg) (whence : Z) (shared : sarg) : B (option Z * Z) :=
  reset_buffers k ;; on_raw (fun f => raw_lock_file f timeout length offset whence shared).
Definition b_unlock_file (k : bkind) (length offset : parg) (whence : Z) : B unit :=
  reset_buffers k ;; on_raw (fun f => raw_unlock_file f length offset whence).
(** [with s.lock_file(...): body]: the context manager is the raw stream's
    (rsfileio_abstract.py:527-532), it calls the raw stream's unlock_file. *)
Definition b_with_lock {A} (k : bkind) (timeout length offset : parg) (whence : Z) (shared : sarg) (body : B A) : B A :=
  cm <- b_lock_file k timeout length offset whence shared ;;
  r <- body ;;
  on_raw (fun f => raw_unlock_file f (match fst cm with None => PNone | Some l => PInt l end) (PInt (snd cm)) 0) ;;
  ret r.

(** close(): pyio:824-830 (reader), 1315-1328 (writer, random) *)
Definition raw_close_b : B unit :=
  fun b => let '(r, w) := raw_close (b_raw b) (b_w b) in
           (r, mkB (set_closed (b_raw b)) (b_size b) (b_rbuf b) (b_rpos b) (b_wbuf b) w).
Definition b_close (k : bkind) : B unit :=
  fun b => if f_closed (b_raw b) then (Ok tt, b) else finally (b_flush k) raw_close_b b.
