(** Model of rsbackend/_utilities.py. No proofs here. *)
From Coq Require Import ZArith List Bool.
From Verif Require Import M_Base.
Import ListNotations.
Open Scope Z_scope.

(** rsbackend/_utilities.py:4 *)
Definition MAX_DWORD : Z := 2 ^ 32 - 1.

(** rsbackend/_utilities.py:7-10 *)
Definition signed_to_unsigned (value wordsize : Z) : Z :=
  if value <? 0 then value + 2 ^ wordsize else value.

(** rsbackend/_utilities.py:13-16 *)
Definition unsigned_to_signed (value wordsize : Z) : Z :=
  if 2 ^ (wordsize - 1) <=? value then value - 2 ^ wordsize else value.

(** rsbackend/_utilities.py:19-28; result is (low, high).
    Python's & and >> on unbounded two's-complement integers are Z.land and
    Z.shiftr. *)
Definition pyint_to_double_dwords (mylong dwordsize : Z) : res (Z * Z) :=
  if mylong <? 0 then Err EValue
  else Ok (Z.land mylong (2 ^ dwordsize - 1),
           Z.land (Z.shiftr mylong dwordsize) (2 ^ dwordsize - 1)).

(** rsbackend/_utilities.py:31-34 *)
Definition double_dwords_to_pyint (loworder highorder dwordsize : Z) : Z :=
  Z.shiftl highorder dwordsize + loworder.

(** rsbackend/_utilities.py:37-45.  The Python function returns
    float(ts - 116444736000000000) / 10000000; the model keeps the exact
    numerator (in 100 ns ticks) and leaves floating point out. *)
Definition EPOCH_TICKS : Z := 116444736000000000.
Definition win32_filetime_to_ticks (loworder highorder : Z) : Z :=
  double_dwords_to_pyint loworder highorder 32 - EPOCH_TICKS.

(** rsbackend/_utilities.py:48-53, on an exact number of 100 ns ticks since 1970. *)
Definition ticks_to_win32_filetime (ticks : Z) : res (Z * Z) :=
  pyint_to_double_dwords (ticks + EPOCH_TICKS) 32.

(** rsbackend/_utilities.py:59-131 *)
Definition error_mapping : list (Z * Z) :=
  [(2,2);(3,2);(4,24);(5,13);(6,9);(7,12);(8,12);(9,12);(10,7);(11,8);(15,2);(16,13);
   (17,18);(18,2);(19,13);(20,13);(21,13);(22,13);(23,13);(24,13);(25,13);(26,13);
   (27,13);(28,13);(29,13);(30,13);(31,13);(32,13);(33,13);(34,13);(35,13);(36,13);
   (53,2);(65,13);(67,2);(80,17);(82,13);(83,13);(89,11);(108,13);(109,32);(112,28);
   (114,9);(128,10);(129,10);(130,9);(132,13);(145,41);(158,13);(161,2);(164,11);
   (167,13);(183,17);(188,8);(189,8);(190,8);(191,8);(192,8);(193,8);(194,8);(195,8);
   (196,8);(197,8);(198,8);(199,8);(200,8);(201,8);(202,8);(206,2);(215,11);(1816,12)].

(** rsbackend/_utilities.py:134-138 *)
Fixpoint assoc_get (l : list (Z * Z)) (k d : Z) : Z :=
  match l with
  | [] => d
  | (k', v) :: t => if k' =? k then v else assoc_get t k d
  end.
Definition winerror_to_errno (winerror : Z) : Z := assoc_get error_mapping winerror 22.

(** rsfileio_windows.py:426-441.  [length = None] or [Some 0] is "not length".
    Returns (low, high, offset_low, offset_high). *)
Definition win32_convert_file_range_arguments (length : option Z) (abs_offset : option Z)
  : res (Z * Z * Z * Z) :=
  let off := match abs_offset with None => 0 | Some o => o end in
  let lens := match length with
              | None => Ok (MAX_DWORD, MAX_DWORD)
              | Some l => if l =? 0 then Ok (MAX_DWORD, MAX_DWORD)
                          else pyint_to_double_dwords l 32
              end in
  match lens with
  | Err e => Err e
  | Ok (lo, hi) =>
      match pyint_to_double_dwords off 32 with
      | Err e => Err e
      | Ok (olo, ohi) => Ok (lo, hi, olo, ohi)
      end
  end.

(** rsbackend/windows_pywin32.py:98-122: the dwords handed to pywin32 as signed
    integers (same for lock and unlock). *)
Definition pywin32_lock_dwords (lo hi : Z) : Z * Z :=
  (unsigned_to_signed lo 32, unsigned_to_signed hi 32).
