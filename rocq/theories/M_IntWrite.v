(** write() and flush() of a buffered writer when a signal handler raises (KeyboardInterrupt) at
    one of their instructions.  "pyio" as in M_Buffered.  No proofs here. *)
From Coq Require Import ZArith List Bool.
From Verif Require Import M_Base M_Modes M_Registry M_Kernel M_World M_Raw M_Buffered.
Import ListNotations.
Open Scope Z_scope.

(** The stream, and how many more instructions run before the handler raises. *)
Definition T (A : Type) : Type := comp (nat * bstate) A.
Definition run_b {A} (m : B A) : T A := fun s => let '(r, b) := m (snd s) in (r, (fst s, b)).
(** The exception of the handler: no EnvironmentError. *)
Definition HANDLER : exn := EUser 0.
(** Between two instructions.  A handler that became due during a system call runs when the call
    has returned to the interpreter. *)
Definition instr : T unit :=
  fun s => match fst s with O => (Err HANDLER, s) | S n => (Ok tt, (n, snd s)) end.

(** The loop of _flush_unlocked, pyio:1291-1303: the test, raw.write, the checks, [del]. *)
Fixpoint flush_loop_i (fuel : nat) : T unit :=
  match fuel with
  | O => raise EFuel
  | S k => instr ;; fun s =>
      match b_wbuf (snd s) with
      | [] => (Ok tt, s)
      | buf =>
          (n <- run_b (on_raw (fun f => raw_write f buf)) ;;
           instr ;;
           match n with
           | None => raise (EBlocking 0)
           | Some n =>
               if (Z.of_nat (length buf) <? n) || (n <? 0) then raise (EOS 0)
               else run_b (fun b => (Ok tt, set_wbuf b (skipn (Z.to_nat n) (b_wbuf b)))) ;; flush_loop_i k
           end) s
      end
  end.
(** _flush_unlocked, pyio:1288-1303 *)
Definition flush_i : T unit :=
  instr ;; run_b b_check_closed ;; fun s => flush_loop_i (S (length (b_wbuf (snd s)))) s.

(** BufferedWriter.write, pyio:1249-1275 *)
Definition write_i (d : list byte) : T Z :=
  instr ;; run_b b_check_closed ;;
  (fun s => if b_size (snd s) <? Z.of_nat (length (b_wbuf (snd s))) then flush_i s else (Ok tt, s)) ;;
  instr ;;
  run_b (fun b => (Ok tt, set_wbuf b (b_wbuf b ++ d))) ;;
  instr ;;
  fun s =>
    let written := Z.of_nat (length d) in
    if b_size (snd s) <? Z.of_nat (length (b_wbuf (snd s))) then
      match flush_i s with
      | (Err (EBlocking x), s1) =>
          (instr ;; fun s2 =>
             let b1 := snd s2 in
             if b_size b1 <? Z.of_nat (length (b_wbuf b1)) then
               let overage := Z.of_nat (length (b_wbuf b1)) - b_size b1 in
               (Err (EBlocking (written - overage)),
                (fst s2, set_wbuf b1 (firstn (Z.to_nat (b_size b1)) (b_wbuf b1))))
             else (Ok written, s2)) s1
      | (Err e, s1) => (Err e, s1)
      | (Ok _, s1) => (Ok written, s1)
      end
    else (Ok written, s).

(** A program that goes on after each call, whatever its outcome; [n] instructions of the call run
    before the handler raises (more than there are: it does not). *)
Inductive icall : Type := IWrite (d : list byte) | IFlush.
Definition run_icall (c : icall) (n : nat) (b : bstate) : res Z * bstate :=
  match c with
  | IWrite d => let '(r, (_, b')) := write_i d (n, b) in (r, b')
  | IFlush => match flush_i (n, b) with (Ok _, (_, b')) => (Ok 0, b') | (Err e, (_, b')) => (Err e, b') end
  end.
Fixpoint run_icalls (l : list (icall * nat)) (b : bstate) : list (icall * res Z) * bstate :=
  match l with
  | [] => ([], b)
  | (c, n) :: l' => let '(r, b1) := run_icall c n b in
                    let '(log, b2) := run_icalls l' b1 in ((c, r) :: log, b2)
  end.
