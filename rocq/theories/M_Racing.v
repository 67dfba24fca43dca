(** Model of a buffered stream that a thread closes while other threads use it.  The methods are those of M_Threads ("pyio" is
    rstest/stdlib/_pyio_py312_backup.py), but a call of the raw stream is two steps: the methods of rsfileio_abstract.py:335-454 first
    look whether the stream is closed and what it can do, and then make system calls on the number of the descriptor; the
    interpreter may switch to another thread in between, and the number is still there when the stream is closed.
    No proofs here. *)
From Coq Require Import ZArith List Bool.
From Verif Require Import M_Base M_Modes M_Registry M_Kernel M_World M_Raw M_Buffered M_Threads.
Import ListNotations.
Open Scope Z_scope.

(** rsfileio_abstract.py:335-454: the tests are made on the stream as it was, the system calls on the descriptor as it is. *)
Definition raw_call {A} (m : rawio -> M A) : prog (res A) :=
  f <~ attr b_raw ;; act (fun b => let '(r, w) := m f (b_w b) in (r, set_world b w)).
(** rsfileio_abstract.py:207-227: [if not self.closed], then IOBase.close marks the stream as closed (pyio:390-400), then the locks and
    the descriptor are released, under the mutex of the registry. *)
Definition mark_closed : B unit :=
  fun b => (Ok tt, mkB (set_closed (b_raw b)) (b_size b) (b_rbuf b) (b_rpos b) (b_wbuf b) (b_w b)).
Definition raw_closing : prog (res unit) :=
  f <~ attr b_raw ;;
  if f_closed f then pret tt
  else act mark_closed ;~ act (fun b => let '(r, w) := raw_close f (b_w b) in (r, set_world b w)).

(** * Writing *)

(** pyio:1291-1303 *)
Fixpoint r_flush_loop (fuel : nat) : prog (res unit) :=
  match fuel with
  | O => praise EFuel
  | S k =>
      buf <~ attr b_wbuf ;;
      match buf with
      | [] => pret tt
      | _ =>
          n <~ raw_call (fun f => raw_write f buf) ;;
          match n with
          | None => praise (EBlocking 0)
          | Some n =>
              if (Z.of_nat (length buf) <? n) || (n <? 0) then praise (EOS 0)
              else act (fun b => (Ok tt, set_wbuf b (skipn (Z.to_nat n) (b_wbuf b)))) ;~ r_flush_loop k
          end
      end
  end.
(** pyio:1288-1303 *)
Definition r_flush_unlocked : prog (res unit) :=
  act b_check_closed ;~
  fuel <~ attr (fun b => S (length (b_wbuf b))) ;; r_flush_loop fuel.
(** pyio:819-822, 1284-1286 *)
Definition r_flush (k : bkind) : prog (res unit) :=
  match k with
  | BReader => act b_check_closed ;~ raw_call raw_flush
  | _ => with_lk LWrite r_flush_unlocked
  end.
(** pyio:1249-1275 *)
Definition r_writer_write (d : list byte) : prog (res Z) :=
  with_lk LWrite
    (act b_check_closed ;~
     full <~ attr (fun b => b_size b <? Z.of_nat (length (b_wbuf b))) ;;
     (if full then r_flush_unlocked else pret tt) ;~
     act (fun b => (Ok tt, set_wbuf b (b_wbuf b ++ d))) ;~
     full <~ attr (fun b => b_size b <? Z.of_nat (length (b_wbuf b))) ;;
     let written := Z.of_nat (length d) in
     if full then
       pseq r_flush_unlocked (fun r =>
         match r with
         | Err (EBlocking x) =>
             act (fun b =>
                    if b_size b <? Z.of_nat (length (b_wbuf b)) then
                      let overage := Z.of_nat (length (b_wbuf b)) - b_size b in
                      (Err (EBlocking (written - overage)), set_wbuf b (firstn (Z.to_nat (b_size b)) (b_wbuf b)))
                    else (Ok written, b))
         | Err e => praise e
         | Ok _ => pret written
         end)
     else pret written).
(** pyio:1422-1425, 1470-1473: BufferedRandom forgets that it has read ahead, before a seek or a write *)
Definition r_undo : prog (res unit) :=
  d <~ attr (fun b => Z.of_nat (b_rpos b) - Z.of_nat (length (b_rbuf b))) ;;
  raw_call (fun f => raw_seek f d 1) ;~ pret tt.
(** pyio:1469-1475 *)
Definition r_write (k : bkind) (d : list byte) : prog (res Z) :=
  match k with
  | BReader => praise EUnsupported
  | BWriter => r_writer_write d
  | BRandom =>
      some <~ attr (fun b => negb (is_nil (b_rbuf b))) ;;
      (if some then with_lk LRead (r_undo ;~ act reset_read_buf) else pret tt) ;~
      r_writer_write d
  end.

(** * Positions *)

(** pyio:783-800 *)
Definition r_mixin_seek (pos wh : Z) : prog (res Z) :=
  n <~ raw_call (fun f => raw_seek f pos wh) ;; if n <? 0 then praise (EOS 0) else pret n.
Definition r_mixin_tell : prog (res Z) :=
  n <~ raw_call raw_tell ;; if n <? 0 then praise (EOS 0) else pret n.
(** pyio:1215-1223, 1308-1313, 1418-1433 *)
Definition r_seek (k : bkind) (pos wh : Z) : prog (res Z) :=
  if negb (valid_whence wh) then praise EValue
  else match k with
  | BReader =>
      act b_check_closed ;~
      with_lk LRead
        (ahead <~ attr (fun b => Z.of_nat (length (unread b))) ;;
         n <~ r_mixin_seek (if wh =? 1 then pos - ahead else pos) wh ;;
         act reset_read_buf ;~ pret n)
  | BWriter => with_lk LWrite (r_flush_unlocked ;~ r_mixin_seek pos wh)
  | BRandom =>
      r_flush BRandom ;~
      some <~ attr (fun b => negb (is_nil (b_rbuf b))) ;;
      (if some then with_lk LRead r_undo else pret tt) ;~
      n <~ raw_call (fun f => raw_seek f pos wh) ;;
      with_lk LRead (act reset_read_buf) ;~
      if n <? 0 then praise (EOS 0) else pret n
  end.
(** pyio:1211-1213, 1305-1306, 1435-1439: no lock *)
Definition r_reader_tell : prog (res Z) :=
  n <~ r_mixin_tell ;;
  l <~ attr (fun b => Z.of_nat (length (b_rbuf b))) ;;
  p <~ attr (fun b => Z.of_nat (b_rpos b)) ;;
  pret (Z.max (n - l + p) 0).
Definition r_writer_tell : prog (res Z) :=
  n <~ r_mixin_tell ;;
  l <~ attr (fun b => Z.of_nat (length (b_wbuf b))) ;;
  pret (n + l).
Definition r_tell (k : bkind) : prog (res Z) :=
  match k with
  | BReader => r_reader_tell
  | BWriter => r_writer_tell
  | BRandom =>
      some <~ attr (fun b => negb (is_nil (b_wbuf b))) ;;
      if some then r_writer_tell else r_reader_tell
  end.
(** pyio:802-815, 1277-1282, 1441-1445 *)
Definition r_writer_truncate (pos : option Z) : prog (res Z) :=
  with_lk LWrite
    (r_flush_unlocked ;~
     p <~ (match pos with None => raw_call raw_tell | Some p => pret p end) ;;
     raw_call (fun f => raw_truncate f (Some p))).
Definition r_truncate (k : bkind) (pos : option Z) : prog (res Z) :=
  match k with
  | BReader => act b_check_closed ;~ praise EUnsupported
  | BWriter => r_writer_truncate pos
  | BRandom =>
      p <~ (match pos with None => r_tell BRandom | Some p => pret p end) ;;
      r_writer_truncate (Some p)
  end.

(** * Reading *)

(** pyio:1107-1113 *)
Fixpoint r_fill_loop (fuel : nat) (wanted n : Z) (out : list byte) : prog (res (list byte * option (list byte))) :=
  match fuel with
  | O => praise EFuel
  | S k =>
      if Z.of_nat (length out) <? n then
        c <~ raw_call (fun f => raw_read f (Some wanted)) ;;
        match c with
        | None => pret (out, None)
        | Some [] => pret (out, Some [])
        | Some c => r_fill_loop k wanted n (out ++ c)
        end
      else pret (out, Some [])
  end.
(** pyio:1070-1120 *)
Definition r_read_unlocked (n : option Z) : prog (res (option (list byte))) :=
  rest <~ attr unread ;;
  let all := match n with None => true | Some k => k =? -1 end in
  if all then
    act reset_read_buf ;~
    c <~ raw_call raw_readall ;;
    match c with
    | None => pret (match rest with [] => None | l => Some l end)
    | Some c => pret (Some (rest ++ c))
    end
  else
    let n := match n with Some k => k | None => 0 end in
    if n <=? Z.of_nat (length rest) then
      act (fun b => (Ok (Some (firstn (Z.to_nat n) rest)), set_rbuf b (b_rbuf b) (b_rpos b + Z.to_nat n)))
    else
      wanted <~ attr (fun b => Z.max (b_size b) n) ;;
      fuel <~ act read_fuel ;;
      r <~ r_fill_loop fuel wanted n rest ;;
      let '(out, nodata) := r in
      let m := Z.to_nat (Z.min n (Z.of_nat (length out))) in
      act (fun b => (Ok tt, set_rbuf b (skipn m out) 0)) ;~
      pret (match out with [] => nodata | _ => Some (firstn m out) end).
(** pyio:1057-1068, 1447-1451 *)
Definition r_reader_read (n : option Z) : prog (res (option (list byte))) :=
  if (match n with Some k => k <? -1 | None => false end) then praise EValue
  else with_lk LRead (r_read_unlocked n).
Definition r_read (k : bkind) (n : option Z) : prog (res (option (list byte))) :=
  match k with
  | BReader => r_reader_read n
  | BWriter => praise EUnsupported
  | BRandom => r_flush BRandom ;~ r_reader_read (Some (match n with None => -1 | Some z => z end))
  end.

(** * size() and close() *)

(** rsfile_streams.py:43-45 *)
Definition r_size (k : bkind) : prog (res Z) := r_flush k ;~ raw_call raw_size.
(** pyio:824-830 (reader, no lock), 1315-1328 *)
Definition r_close (k : bkind) : prog (res unit) :=
  closed <~ closing k (attr (fun b => f_closed (b_raw b))) ;;
  if closed then pret tt
  else pseq (r_flush k) (fun r => pseq (closing k raw_closing) (fun c => PRet (match c with Ok _ => r | Err e => Err e end))).
