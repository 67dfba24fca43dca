(** Small concrete worlds used by the non-vacuity examples of the C_ files. *)
From Coq Require Import ZArith List Bool Ascii String.
From Verif Require Import M_Base M_Modes M_Registry M_Kernel M_World M_Raw.
Import ListNotations.
Open Scope Z_scope.

Definition name (s : string) : list ascii := list_ascii_of_string s.

(** Process 100; file "f" = inode (1,10) with content [data]; directory "d" =
    inode (1,20); the next descriptors are 3, 4, 5, the next inodes (1,30), (1,31). *)
Definition demo (data : list Z) (io : list ioev) (env : list envev) (kern : klocks) : world :=
  mkW (fun p => if str_eqb p (name "f") then Some (1, 10)
                else if str_eqb p (name "d") then Some (1, 20) else None)
      (fun u => if uid_eqb u (1, 10) then Some (mkIno KReg data false)
                else if uid_eqb u (1, 20) then Some (mkIno KDir [] false) else None)
      (fun _ => None) [3; 4; 5] [(1, 30); (1, 31)] kern (mkReg 100 empty_map) 100 io env 0
      (mkOpt None 1) 4096.

(** Raw arguments: open [p] by path. *)
Definition kw (p : string) (r wr ap : bool) : raw_kwargs :=
  mkRaw (NPath (name p)) r wr ap false false false false None None true.

(** A stream on "f" and the world after opening it. *)
Definition demo_open (p : string) (r wr ap : bool) (w : world) : rawio * world :=
  match raw_open (kw p r wr ap) w with
  | (Ok f, w') => (f, w')
  | (Err _, w') => (mkRio None None true true false false false false None 0, w')
  end.

(** Content of an inode. *)
Definition content (w : world) (u : uid) : list Z :=
  match w_inodes w u with Some i => n_data i | None => [] end.
