(** Model of a buffered stream used by several threads at the same time: the methods of _pyio's BufferedReader,
    BufferedWriter and BufferedRandom cut into the steps between which the interpreter may switch to another thread, with
    the locks _read_lock and _write_lock ("pyio" is rstest/stdlib/_pyio_py312_backup.py), and the thread-safe wrapper of
    rsfile_streams.py:170-172.  A call of a method of the raw stream is one step.  What each method computes when nothing
    comes in between is in M_Buffered.  No proofs here. *)
From Coq Require Import ZArith List Bool.
From Verif Require Import M_Base M_Modes M_Registry M_Kernel M_World M_Raw M_Buffered.
Import ListNotations.
Open Scope Z_scope.

(** _read_lock (pyio:1048), _write_lock (pyio:1244), the mutex of the wrapper (rsfile_streams.py:162-168) *)
Inductive lk : Type := LRead | LWrite | LMutex.

(** Which locks are taken.  threading.Lock does not look at who releases it. *)
Record locks : Type := mkLocks { l_read : bool; l_write : bool; l_mutex : bool }.
Definition all_free : locks := mkLocks false false false.
Definition taken_by_someone (ls : locks) (l : lk) : bool :=
  match l with LRead => l_read ls | LWrite => l_write ls | LMutex => l_mutex ls end.
Definition set_lock (ls : locks) (l : lk) (v : bool) : locks :=
  match l with
  | LRead => mkLocks v (l_write ls) (l_mutex ls)
  | LWrite => mkLocks (l_read ls) v (l_mutex ls)
  | LMutex => mkLocks (l_read ls) (l_write ls) v
  end.

(** What is left of a call: it returned; or one step on the stream, and what follows given its result; or taking or
    releasing a lock, and what follows. *)
Inductive prog (A : Type) : Type :=
| PRet (a : A)
| PAct (X : Type) (m : bstate -> X * bstate) (k : X -> prog A)
| PAcq (l : lk) (p : prog A)
| PRel (l : lk) (p : prog A).
Arguments PRet {A} a.
Arguments PAct {A X} m k.
Arguments PAcq {A} l p.
Arguments PRel {A} l p.

Fixpoint pseq {A C} (p : prog A) (f : A -> prog C) : prog C :=
  match p with
  | PRet a => f a
  | PAct m k => PAct m (fun x => pseq (k x) f)
  | PAcq l q => PAcq l (pseq q f)
  | PRel l q => PRel l (pseq q f)
  end.
(** Statements one after the other, unless an exception is raised. *)
Definition pbind {A C} (p : prog (res A)) (f : A -> prog (res C)) : prog (res C) :=
  pseq p (fun r => match r with Ok a => f a | Err e => PRet (Err e) end).
Definition pret {A} (a : A) : prog (res A) := PRet (Ok a).
Definition praise {A} (e : exn) : prog (res A) := PRet (Err e).
Definition act {X} (m : B X) : prog (res X) := PAct m PRet.
(** reading an attribute *)
Definition attr {X} (f : bstate -> X) : prog (res X) := act (fun b => (Ok (f b), b)).
(** [with self.lock: p] *)
Definition with_lk {A} (l : lk) (p : prog A) : prog A := PAcq l (pseq p (fun r => PRel l (PRet r))).

Notation "x <~ p ;; q" := (pbind p (fun x => q)) (at level 61, p at next level, right associativity).
Notation "p ;~ q" := (pbind p (fun _ => q)) (at level 61, right associativity).

(** * Writing *)

(** pyio:1291-1303 *)
Fixpoint p_flush_loop (fuel : nat) : prog (res unit) :=
  match fuel with
  | O => praise EFuel
  | S k =>
      buf <~ attr b_wbuf ;;
      match buf with
      | [] => pret tt
      | _ =>
          n <~ act (on_raw (fun f => raw_write f buf)) ;;
          match n with
          | None => praise (EBlocking 0)
          | Some n =>
              if (Z.of_nat (length buf) <? n) || (n <? 0) then praise (EOS 0)
              else act (fun b => (Ok tt, set_wbuf b (skipn (Z.to_nat n) (b_wbuf b)))) ;~ p_flush_loop k
          end
      end
  end.
(** pyio:1288-1303 *)
Definition p_flush_unlocked : prog (res unit) :=
  act b_check_closed ;~
  fuel <~ attr (fun b => S (length (b_wbuf b))) ;; p_flush_loop fuel.
(** pyio:819-822, 1284-1286 *)
Definition p_flush (k : bkind) : prog (res unit) :=
  match k with
  | BReader => act b_check_closed ;~ act (on_raw raw_flush)
  | _ => with_lk LWrite p_flush_unlocked
  end.

(** pyio:1249-1275 *)
Definition p_writer_write (d : list byte) : prog (res Z) :=
  with_lk LWrite
    (act b_check_closed ;~
     full <~ attr (fun b => b_size b <? Z.of_nat (length (b_wbuf b))) ;;
     (if full then p_flush_unlocked else pret tt) ;~
     act (fun b => (Ok tt, set_wbuf b (b_wbuf b ++ d))) ;~
     full <~ attr (fun b => b_size b <? Z.of_nat (length (b_wbuf b))) ;;
     let written := Z.of_nat (length d) in
     if full then
       pseq p_flush_unlocked (fun r =>
         match r with
         | Err (EBlocking x) =>
             act (fun b =>
                    if b_size b <? Z.of_nat (length (b_wbuf b)) then
                      let overage := Z.of_nat (length (b_wbuf b)) - b_size b in
                      (Err (EBlocking (written - overage)), set_wbuf b (firstn (Z.to_nat (b_size b)) (b_wbuf b)))
                    else (Ok written, b))
         | Err e => praise e
         | Ok _ => pret written
         end)
     else pret written).
(** pyio:1469-1475 *)
Definition p_write (k : bkind) (d : list byte) : prog (res Z) :=
  match k with
  | BReader => praise EUnsupported
  | BWriter => p_writer_write d
  | BRandom =>
      some <~ attr (fun b => negb (is_nil (b_rbuf b))) ;;
      (if some then with_lk LRead (act undo_readahead ;~ act reset_read_buf) else pret tt) ;~
      p_writer_write d
  end.

(** * Positions *)

(** pyio:1215-1223, 1308-1313, 1418-1433 *)
Definition p_seek (k : bkind) (pos wh : Z) : prog (res Z) :=
  if negb (valid_whence wh) then praise EValue
  else match k with
  | BReader =>
      act b_check_closed ;~
      with_lk LRead
        (ahead <~ attr (fun b => Z.of_nat (length (unread b))) ;;
         n <~ act (mixin_seek (if wh =? 1 then pos - ahead else pos) wh) ;;
         act reset_read_buf ;~ pret n)
  | BWriter => with_lk LWrite (p_flush_unlocked ;~ act (mixin_seek pos wh))
  | BRandom =>
      p_flush BRandom ;~
      some <~ attr (fun b => negb (is_nil (b_rbuf b))) ;;
      (if some then with_lk LRead (act undo_readahead) else pret tt) ;~
      n <~ act (on_raw (fun f => raw_seek f pos wh)) ;;
      with_lk LRead (act reset_read_buf) ;~
      if n <? 0 then praise (EOS 0) else pret n
  end.

(** pyio:1211-1213, 1305-1306, 1435-1439: no lock *)
Definition p_reader_tell : prog (res Z) :=
  n <~ act mixin_tell ;;
  l <~ attr (fun b => Z.of_nat (length (b_rbuf b))) ;;
  p <~ attr (fun b => Z.of_nat (b_rpos b)) ;;
  pret (Z.max (n - l + p) 0).
Definition p_writer_tell : prog (res Z) :=
  n <~ act mixin_tell ;;
  l <~ attr (fun b => Z.of_nat (length (b_wbuf b))) ;;
  pret (n + l).
Definition p_tell (k : bkind) : prog (res Z) :=
  match k with
  | BReader => p_reader_tell
  | BWriter => p_writer_tell
  | BRandom =>
      some <~ attr (fun b => negb (is_nil (b_wbuf b))) ;;
      if some then p_writer_tell else p_reader_tell
  end.

(** pyio:802-815, 1277-1282, 1441-1445 *)
Definition p_writer_truncate (pos : option Z) : prog (res Z) :=
  with_lk LWrite
    (p_flush_unlocked ;~
     p <~ (match pos with None => act (on_raw raw_tell) | Some p => pret p end) ;;
     act (on_raw (fun f => raw_truncate f (Some p)))).
Definition p_truncate (k : bkind) (pos : option Z) : prog (res Z) :=
  match k with
  | BReader => act b_check_closed ;~ praise EUnsupported
  | BWriter => p_writer_truncate pos
  | BRandom =>
      p <~ (match pos with None => p_tell BRandom | Some p => pret p end) ;;
      p_writer_truncate (Some p)
  end.

(** * Reading *)

(** pyio:1107-1113 *)
Fixpoint p_fill_loop (fuel : nat) (wanted n : Z) (out : list byte) : prog (res (list byte * option (list byte))) :=
  match fuel with
  | O => praise EFuel
  | S k =>
      if Z.of_nat (length out) <? n then
        c <~ act (on_raw (fun f => raw_read f (Some wanted))) ;;
        match c with
        | None => pret (out, None)
        | Some [] => pret (out, Some [])
        | Some c => p_fill_loop k wanted n (out ++ c)
        end
      else pret (out, Some [])
  end.
(** pyio:1070-1120 *)
Definition p_read_unlocked (n : option Z) : prog (res (option (list byte))) :=
  rest <~ attr unread ;;
  let all := match n with None => true | Some k => k =? -1 end in
  if all then
    act reset_read_buf ;~
    c <~ act (on_raw raw_readall) ;;
    match c with
    | None => pret (match rest with [] => None | l => Some l end)
    | Some c => pret (Some (rest ++ c))
    end
  else
    let n := match n with Some k => k | None => 0 end in
    if n <=? Z.of_nat (length rest) then
      act (fun b => (Ok (Some (firstn (Z.to_nat n) rest)), set_rbuf b (b_rbuf b) (b_rpos b + Z.to_nat n)))
    else
      wanted <~ attr (fun b => Z.max (b_size b) n) ;;
      fuel <~ act read_fuel ;;
      r <~ p_fill_loop fuel wanted n rest ;;
      let '(out, nodata) := r in
      let m := Z.to_nat (Z.min n (Z.of_nat (length out))) in
      act (fun b => (Ok tt, set_rbuf b (skipn m out) 0)) ;~
      pret (match out with [] => nodata | _ => Some (firstn m out) end).
(** pyio:1057-1068, 1447-1451 *)
Definition p_reader_read (n : option Z) : prog (res (option (list byte))) :=
  if (match n with Some k => k <? -1 | None => false end) then praise EValue
  else with_lk LRead (p_read_unlocked n).
Definition p_read (k : bkind) (n : option Z) : prog (res (option (list byte))) :=
  match k with
  | BReader => p_reader_read n
  | BWriter => praise EUnsupported
  | BRandom => p_flush BRandom ;~ p_reader_read (Some (match n with None => -1 | Some z => z end))
  end.

(** pyio:1133-1142 *)
Definition p_peek_unlocked (n : Z) : prog (res (list byte)) :=
  have <~ attr (fun b => Z.of_nat (length (unread b))) ;;
  size <~ attr b_size ;;
  (if (have <? Z.min n size) || (have <=? 0) then
     c <~ act (on_raw (fun f => raw_read f (Some (size - have)))) ;;
     match c with
     | Some ((_ :: _) as c) => act (fun b => (Ok tt, set_rbuf b (unread b ++ c) 0))
     | _ => pret tt
     end
   else pret tt) ;~
  attr unread.
(** pyio:1122-1131, 1457-1459 *)
Definition p_reader_peek (n : Z) : prog (res (list byte)) :=
  act b_check_closed ;~ with_lk LRead (p_peek_unlocked n).
Definition p_peek (k : bkind) (n : Z) : prog (res (list byte)) :=
  match k with
  | BReader => p_reader_peek n
  | BWriter => praise EKey
  | BRandom => p_flush BRandom ;~ p_reader_peek n
  end.
(** pyio:1144-1158, 1461-1463 *)
Definition p_reader_read1 (n : Z) : prog (res (option (list byte))) :=
  act b_check_closed ;~
  size <~ attr b_size ;;
  let n := if n <? 0 then size else n in
  if n =? 0 then pret (Some [])
  else with_lk LRead
         (p_peek_unlocked 1 ;~
          have <~ attr (fun b => Z.of_nat (length (unread b))) ;;
          p_read_unlocked (Some (Z.min n have))).
Definition p_read1 (k : bkind) (n : Z) : prog (res (option (list byte))) :=
  match k with
  | BReader => p_reader_read1 n
  | BWriter => praise EUnsupported
  | BRandom => p_flush BRandom ;~ p_reader_read1 n
  end.

(** readline() of IOBase, pyio:524-564: peek and read take the lock one after the other *)
Fixpoint p_readline_loop (fuel : nat) (k : bkind) (size : Z) (got : list byte) : prog (res (list byte)) :=
  match fuel with
  | O => praise EFuel
  | S fu =>
      if (size <? 0) || (Z.of_nat (length got) <? size) then
        ahead <~ p_peek k 1 ;;
        let n := match ahead with
                 | [] => 1
                 | _ => let n := match newline_len ahead with
                                 | O => Z.of_nat (length ahead)
                                 | m => Z.of_nat m
                                 end in
                        if 0 <=? size then Z.min n size else n
                 end in
        d <~ p_read k (Some n) ;;
        match d with
        | None | Some [] => pret got
        | Some d => if last d 0 =? 10 then pret (got ++ d) else p_readline_loop fu k size (got ++ d)
        end
      else pret got
  end.
Definition p_readline (k : bkind) (size : Z) : prog (res (list byte)) :=
  match k with
  | BWriter => if size =? 0 then pret [] else praise EUnsupported
  | _ =>
      fuel <~ act read_fuel ;;
      more <~ attr (fun b => length (unread b) + length (b_wbuf b) + 1)%nat ;;
      p_readline_loop (fuel + more)%nat k size []
  end.

(** * size() and close() *)

(** rsfile_streams.py:43-45 *)
Definition p_size (k : bkind) : prog (res Z) := p_flush k ;~ act (on_raw raw_size).
(** pyio:824-830 (reader, no lock), 1315-1328: the lock is given back before flush(). *)
Definition closing {A} (k : bkind) (p : prog A) : prog A := match k with BReader => p | _ => with_lk LWrite p end.
Definition p_close (k : bkind) : prog (res unit) :=
  closed <~ closing k (attr (fun b => f_closed (b_raw b))) ;;
  if closed then pret tt
  else pseq (p_flush k) (fun r => pseq (closing k (act raw_close_b)) (fun c => PRet (match c with Ok _ => r | Err e => Err e end))).

(** * Threads *)

(** The call a thread is in and what is left of it; the calls it has still to make. *)
Record thread (O R : Type) : Type := mkThread { t_now : option (O * prog R); t_todo : list O }.
Arguments mkThread {O R}.
Arguments t_now {O R}.
Arguments t_todo {O R}.

(** The locks, the stream, the threads, and the calls that returned (with the thread and the result), in that order. *)
Record pool (O R : Type) : Type := mkPool {
  q_locks : locks; q_st : bstate; q_thr : list (thread O R); q_log : list (nat * O * R) }.
Arguments mkPool {O R}.
Arguments q_locks {O R}.
Arguments q_st {O R}.
Arguments q_thr {O R}.
Arguments q_log {O R}.

(** Thread [t] is in call [o] and has [p] left to do: nothing left means that the call has returned. *)
Definition settle {O R} (t : nat) (o : O) (p : prog R) (todo : list O) (ls : locks) (b : bstate) (q : pool O R) : pool O R :=
  match p with
  | PRet r => mkPool ls b (nth_update (q_thr q) t (mkThread None todo)) (q_log q ++ [(t, o, r)])
  | _ => mkPool ls b (nth_update (q_thr q) t (mkThread (Some (o, p)) todo)) (q_log q)
  end.

(** One step of thread [t]; None: it waits for a lock, or has finished. *)
Definition pstep {O R} (start : O -> prog R) (t : nat) (q : pool O R) : option (pool O R) :=
  match nth_error (q_thr q) t with
  | Some (mkThread None (o :: todo)) => Some (settle t o (start o) todo (q_locks q) (q_st q) q)
  | Some (mkThread (Some (o, p)) todo) =>
      match p with
      | PRet _ => None
      | PAct m k => let '(x, b) := m (q_st q) in Some (settle t o (k x) todo (q_locks q) b q)
      | PAcq l p1 =>
          if taken_by_someone (q_locks q) l then None
          else Some (settle t o p1 todo (set_lock (q_locks q) l true) (q_st q) q)
      | PRel l p1 => Some (settle t o p1 todo (set_lock (q_locks q) l false) (q_st q) q)
      end
  | _ => None
  end.
(** [sched]: which thread makes each step. *)
Fixpoint prun {O R} (start : O -> prog R) (sched : list nat) (q : pool O R) : option (pool O R) :=
  match sched with
  | [] => Some q
  | t :: r => match pstep start t q with None => None | Some q1 => prun start r q1 end
  end.
(** Threads about to make the calls of [scripts] on the stream [b]. *)
Definition new_pool {O R} (b : bstate) (scripts : list (list O)) : pool O R :=
  mkPool all_free b (map (fun s => mkThread None s) scripts) [].

(** _secure_call, rsfile_streams.py:170-172 (the mutex is an RLock; no call takes it twice here) *)
Definition secured {R} (p : prog R) : prog R := with_lk LMutex p.
