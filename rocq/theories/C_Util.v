(** Final statements: integer codecs (C06) and win32 lock ranges (C41). *)
From Coq Require Import ZArith List Bool Lia.
From Verif Require Import M_Base M_Util P_Util.
Import ListNotations.
Open Scope Z_scope.

(** C06: splitting then joining is the identity; for every word size [w]. *)
Theorem C06_split_join : forall a w, 0 <= w -> 0 <= a < 2 ^ (2 * w) ->
  exists lo hi, pyint_to_double_dwords a w = Ok (lo, hi)
    /\ 0 <= lo < 2 ^ w /\ 0 <= hi < 2 ^ w
    /\ double_dwords_to_pyint lo hi w = a.
Proof. exact split_join. Qed.

Theorem C06_join_split : forall lo hi w, 0 <= w -> 0 <= lo < 2 ^ w -> 0 <= hi < 2 ^ w ->
  pyint_to_double_dwords (double_dwords_to_pyint lo hi w) w = Ok (lo, hi)
  /\ 0 <= double_dwords_to_pyint lo hi w < 2 ^ (2 * w).
Proof. exact join_split. Qed.

Theorem C06_negative_rejected : forall a w, a < 0 -> pyint_to_double_dwords a w = Err EValue.
Proof. exact split_negative. Qed.

Theorem C06_unsigned_signed_unsigned : forall v w, 0 < w -> 0 <= v < 2 ^ w ->
  signed_to_unsigned (unsigned_to_signed v w) w = v
  /\ - 2 ^ (w - 1) <= unsigned_to_signed v w < 2 ^ (w - 1).
Proof. exact signed_unsigned. Qed.

Theorem C06_signed_unsigned_signed : forall v w, 0 < w -> - 2 ^ (w - 1) <= v < 2 ^ (w - 1) ->
  unsigned_to_signed (signed_to_unsigned v w) w = v
  /\ 0 <= signed_to_unsigned v w < 2 ^ w.
Proof. exact unsigned_signed. Qed.

(** C06, last sentence ("the arguments can be negative or positive integers",
    _utilities.py:31): false.  Joining the signed forms of two dwords gives the
    same integer only when neither has its top bit set... *)
Theorem C06_join_signed_partial : forall lo hi w, 0 < w -> 0 <= lo < 2 ^ w -> 0 <= hi < 2 ^ w ->
  (double_dwords_to_pyint (unsigned_to_signed lo w) (unsigned_to_signed hi w) w
   = double_dwords_to_pyint lo hi w
   <-> lo < 2 ^ (w - 1) /\ hi < 2 ^ (w - 1)).
Proof. exact join_signed. Qed.

(** ... and a concrete failure on 32-bit dwords: the pair (-1, 0) denotes
    0x00000000ffffffff but joins to -1. *)
Theorem C06_join_signed_refuted :
  exists lo hi, 0 <= lo < 2 ^ 32 /\ 0 <= hi < 2 ^ 32
    /\ double_dwords_to_pyint (unsigned_to_signed lo 32) (unsigned_to_signed hi 32) 32
       <> double_dwords_to_pyint lo hi 32.
Proof. exists (2 ^ 32 - 1), 0. vm_compute. repeat split; congruence. Qed.

(** Integers of 2^64 and more are silently reduced modulo 2^64. *)
Theorem C06_split_overflow : forall a w, 0 <= w -> 0 <= a ->
  exists lo hi, pyint_to_double_dwords a w = Ok (lo, hi)
    /\ double_dwords_to_pyint lo hi w = a mod 2 ^ (2 * w).
Proof. exact split_overflow. Qed.

Theorem C06_winerror_known : forall e v, In (e, v) error_mapping -> winerror_to_errno e = v.
Proof. exact winerror_known. Qed.
Theorem C06_winerror_default : forall e, (forall v, ~ In (e, v) error_mapping) -> winerror_to_errno e = 22.
Proof. exact winerror_default. Qed.

(** C41: the system sees exactly the requested range. *)
Theorem C41_range_exact : forall length off,
  0 < length < 2 ^ 64 -> 0 <= off < 2 ^ 64 ->
  exists lo hi olo ohi,
    win32_convert_file_range_arguments (Some length) (Some off) = Ok (lo, hi, olo, ohi)
    /\ 0 <= lo < 2 ^ 32 /\ 0 <= hi < 2 ^ 32 /\ 0 <= olo < 2 ^ 32 /\ 0 <= ohi < 2 ^ 32
    /\ hi * 2 ^ 32 + lo = length /\ ohi * 2 ^ 32 + olo = off.
Proof. exact win32_range_exact. Qed.

Theorem C41_range_infinite : forall length off,
  (length = None \/ length = Some 0) -> 0 <= off < 2 ^ 64 ->
  exists lo hi olo ohi,
    win32_convert_file_range_arguments length (Some off) = Ok (lo, hi, olo, ohi)
    /\ 0 <= lo < 2 ^ 32 /\ 0 <= hi < 2 ^ 32 /\ 0 <= olo < 2 ^ 32 /\ 0 <= ohi < 2 ^ 32
    /\ hi * 2 ^ 32 + lo = 2 ^ 64 - 1 /\ ohi * 2 ^ 32 + olo = off.
Proof. exact win32_range_infinite. Qed.

(** C41, pywin32 backend: the signed dwords handed over denote, as 32-bit words,
    the same dwords. *)
Theorem C41_pywin32_words : forall lo hi, 0 <= lo < 2 ^ 32 -> 0 <= hi < 2 ^ 32 ->
  let (slo, shi) := pywin32_lock_dwords lo hi in
  - 2 ^ 31 <= slo < 2 ^ 31 /\ - 2 ^ 31 <= shi < 2 ^ 31
  /\ slo mod 2 ^ 32 = lo /\ shi mod 2 ^ 32 = hi.
Proof.
  intros lo hi Hlo Hhi. unfold pywin32_lock_dwords, unsigned_to_signed.
  change (32 - 1) with 31.
  assert (forall v, 0 <= v < 2 ^ 32 ->
    - 2 ^ 31 <= (if 2 ^ 31 <=? v then v - 2 ^ 32 else v) < 2 ^ 31
    /\ (if 2 ^ 31 <=? v then v - 2 ^ 32 else v) mod 2 ^ 32 = v) as H.
  { intros v Hv. destruct (Z.leb_spec (2 ^ 31) v); split; try lia.
    - replace (v - 2 ^ 32) with (v + (-1) * 2 ^ 32) by lia.
      rewrite Z.mod_add by lia. apply Z.mod_small; lia.
    - apply Z.mod_small; lia. }
  destruct (H lo Hlo), (H hi Hhi). auto.
Qed.

Example C06_ex : pyint_to_double_dwords 123456789012345 32 = Ok (2249056121, 28744)
  /\ double_dwords_to_pyint 2249056121 28744 32 = 123456789012345.
Proof. split; reflexivity. Qed.
Example C06_ex_word : 0 <= 2 ^ 31 < 2 ^ 32 /\ unsigned_to_signed (2 ^ 31) 32 = - 2 ^ 31.
Proof. vm_compute. repeat split; congruence. Qed.
Example C41_ex : win32_convert_file_range_arguments (Some (2 ^ 33 + 5)) (Some (2 ^ 32)) = Ok (5, 2, 0, 1).
Proof. reflexivity. Qed.

Print Assumptions C06_split_join.
Print Assumptions C06_join_split.
Print Assumptions C06_unsigned_signed_unsigned.
Print Assumptions C06_signed_unsigned_signed.
Print Assumptions C06_join_signed_partial.
Print Assumptions C06_join_signed_refuted.
Print Assumptions C06_split_overflow.
Print Assumptions C06_winerror_known.
Print Assumptions C06_winerror_default.
Print Assumptions C41_range_exact.
Print Assumptions C41_range_infinite.
Print Assumptions C41_pywin32_words.
Print Assumptions C06_negative_rejected.
