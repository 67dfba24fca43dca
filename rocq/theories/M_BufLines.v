(** readlines() and writelines() of buffered streams, inherited from IOBase.
    pyio: src/rsfile/rstest/stdlib/_pyio_py39_backup.py *)
From Coq Require Import ZArith List Bool.
From Verif Require Import M_Base M_Registry M_Kernel M_World M_Raw M_Buffered.
Import ListNotations.
Open Scope Z_scope.

(** The loop of readlines(), pyio:591-600, over __next__, 578-582; also list(self), where
    [hint] <= 0.  [n]: the bytes got so far.  [fuel]: each turn but the last gets a byte. *)
Fixpoint lines_loop (fuel : nat) (k : bkind) (hint n : Z) (acc : list (list byte)) : B (list (list byte)) :=
  match fuel with
  | O => raise EFuel
  | S fu =>
      line <- b_readline k (-1) ;;
      match line with
      | [] => ret acc
      | _ =>
          let n1 := n + Z.of_nat (length line) in
          if (0 <? hint) && (hint <=? n1) then ret (acc ++ [line]) else lines_loop fu k hint n1 (acc ++ [line])
      end
  end.
(** readlines(), pyio:584-600; __iter__, 574-576, checks that the stream is open *)
Definition b_readlines (k : bkind) (hint : Z) : B (list (list byte)) :=
  b_check_closed ;;
  fuel <- read_fuel ;; fun b => lines_loop (fuel + length (unread b) + length (b_wbuf b) + 1)%nat k hint 0 [] b.

(** The loop of writelines(), pyio:609-610 *)
Fixpoint write_all (k : bkind) (ds : list (list byte)) : B unit :=
  match ds with
  | [] => ret tt
  | d :: r => b_write k d ;; write_all k r
  end.
(** writelines(), pyio:602-610 *)
Definition b_writelines (k : bkind) (ds : list (list byte)) : B unit := b_check_closed ;; write_all k ds.
