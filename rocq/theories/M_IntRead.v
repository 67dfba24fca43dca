(** read(), read1() and peek() of a buffered reader when a signal handler raises (KeyboardInterrupt) at one of their
    instructions.  "pyio" as in M_Buffered.  Lengths are computed as in the code, where _read_pos may come to lie beyond
    the end of _read_buf.  No proofs here. *)
From Coq Require Import ZArith List Bool.
From Verif Require Import M_Base M_Modes M_Registry M_Kernel M_World M_Raw M_Buffered M_IntWrite.
Import ListNotations.
Open Scope Z_scope.

(** out[:n] and out[n:], for any sign of [n] *)
Definition upto (n : Z) (l : list byte) : list byte :=
  firstn (Z.to_nat (if n <? 0 then Z.of_nat (length l) + n else n)) l.
Definition onward (n : Z) (l : list byte) : list byte :=
  skipn (Z.to_nat (if n <? 0 then Z.of_nat (length l) + n else n)) l.
(** len(self._read_buf) - self._read_pos *)
Definition avail (b : bstate) : Z := Z.of_nat (length (b_rbuf b)) - Z.of_nat (b_rpos b).
(** reading the attributes *)
Definition getb : T bstate := run_b (fun b => (Ok b, b)).
(** self._read_buf = l *)
Definition put_buf (l : list byte) : T unit := run_b (fun b => (Ok tt, set_rbuf b l (b_rpos b))).
(** self._read_pos = n *)
Definition put_pos (n : nat) : T unit := run_b (fun b => (Ok tt, set_rbuf b (b_rbuf b) n)).

(** readall() of the raw stream, rsfileio_abstract.py:354-370 *)
Fixpoint readall_loop_i (fuel : nat) (acc : list byte) : T (option (list byte)) :=
  match fuel with
  | O => raise EFuel
  | S k =>
      instr ;;
      d <- run_b (on_raw (fun f => raw_read f (Some DEFAULT_BUFFER_SIZE))) ;;
      instr ;;
      match d with
      | Some ((_ :: _) as c) => readall_loop_i k (acc ++ c)
      | _ => ret (match acc with [] => d | _ => Some acc end)
      end
  end.
(** The loop of _read_unlocked, pyio:1107-1113; [av]: the local variable avail. *)
Fixpoint fill_loop_i (fuel : nat) (wanted n av : Z) (out : list byte) : T (list byte * Z * option (list byte)) :=
  match fuel with
  | O => raise EFuel
  | S k =>
      instr ;;
      if av <? n then
        c <- run_b (on_raw (fun f => raw_read f (Some wanted))) ;;
        instr ;;
        match c with
        | None => ret (out, av, None)
        | Some [] => ret (out, av, Some [])
        | Some c => fill_loop_i k wanted n (av + Z.of_nat (length c)) (out ++ c)
        end
      else ret (out, av, Some [])
  end.
(** _read_unlocked, pyio:1070-1120; _reset_read_buf, pyio:1053-1055 *)
Definition read_unlocked_i (n : option Z) : T (option (list byte)) :=
  instr ;;
  b <- getb ;;
  if (match n with None => true | Some k => k =? -1 end) then
    put_buf [] ;; instr ;; put_pos 0 ;;
    fuel <- run_b read_fuel ;;
    c <- readall_loop_i fuel [] ;;
    instr ;;
    match c with
    | None => ret (match unread b with [] => None | l => Some l end)
    | Some c => ret (Some (unread b ++ c))
    end
  else
    let n := match n with Some k => k | None => 0 end in
    if n <=? avail b then
      put_pos (Z.to_nat (Z.of_nat (b_rpos b) + n)) ;;
      instr ;;
      ret (Some (firstn (Z.to_nat n) (unread b)))
    else
      fuel <- run_b read_fuel ;;
      r <- fill_loop_i fuel (Z.max (b_size b) n) n (avail b) (unread b) ;;
      let '(out, av, nodata) := r in
      instr ;;
      put_buf (onward (Z.min n av) out) ;;
      instr ;;
      put_pos 0 ;;
      instr ;;
      ret (match out with [] => nodata | _ => Some (upto (Z.min n av) out) end).
(** read(), pyio:1057-1068 *)
Definition read_i (n : option Z) : T (option (list byte)) :=
  if (match n with Some k => k <? -1 | None => false end) then raise EValue
  else read_unlocked_i n.
(** The first part of _peek_unlocked, pyio:1134-1141. *)
Definition peek_fill_i (n : Z) : T unit :=
  instr ;;
  b <- getb ;;
  if (avail b <? Z.min n (b_size b)) || (avail b <=? 0) then
    c <- run_b (on_raw (fun f => raw_read f (Some (b_size b - avail b)))) ;;
    instr ;;
    match c with
    | Some ((_ :: _) as c) => put_buf (unread b ++ c) ;; instr ;; put_pos 0
    | _ => ret tt
    end
  else ret tt.
(** _peek_unlocked, pyio:1133-1142 *)
Definition peek_unlocked_i (n : Z) : T (list byte) :=
  peek_fill_i n ;; instr ;; b <- getb ;; ret (unread b).
(** peek(), pyio:1122-1131 *)
Definition peek_i (n : Z) : T (list byte) := run_b b_check_closed ;; peek_unlocked_i n.
(** read1(), pyio:1144-1158 *)
Definition read1_i (n : Z) : T (option (list byte)) :=
  run_b b_check_closed ;;
  b <- getb ;;
  let n := if n <? 0 then b_size b else n in
  if n =? 0 then ret (Some [])
  else peek_unlocked_i 1 ;; b <- getb ;; read_unlocked_i (Some (Z.min n (avail b))).

(** A program that goes on after each call; [n] instructions of the call run before the handler raises. *)
Inductive rcall : Type := IRead (n : option Z) | IRead1 (n : Z) | IPeek (n : Z).
Definition run_rcall (c : rcall) (n : nat) (b : bstate) : res (option (list byte)) * bstate :=
  match c with
  | IRead k => let '(r, (_, b')) := read_i k (n, b) in (r, b')
  | IRead1 k => let '(r, (_, b')) := read1_i k (n, b) in (r, b')
  | IPeek k => let '(r, (_, b')) := peek_i k (n, b) in (match r with Ok d => Ok (Some d) | Err e => Err e end, b')
  end.
Fixpoint run_rcalls (l : list (rcall * nat)) (b : bstate) : list (rcall * res (option (list byte))) * bstate :=
  match l with
  | [] => ([], b)
  | (c, n) :: l' => let '(r, b1) := run_rcall c n b in
                    let '(log, b2) := run_rcalls l' b1 in ((c, r) :: log, b2)
  end.
