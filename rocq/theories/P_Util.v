From Coq Require Import ZArith List Bool Lia ZifyBool.
From Verif Require Import M_Base M_Util.
Import ListNotations.
Open Scope Z_scope.

Lemma land_ones_mod a w : 0 <= w -> Z.land a (2 ^ w - 1) = a mod 2 ^ w.
Proof.
  intros Hw. rewrite <- (Z.land_ones a w) by lia. f_equal.
  rewrite Z.ones_equiv. lia.
Qed.

Lemma split_form a w : 0 <= w -> 0 <= a ->
  pyint_to_double_dwords a w = Ok (a mod 2 ^ w, (a / 2 ^ w) mod 2 ^ w).
Proof.
  intros Hw Ha. unfold pyint_to_double_dwords.
  destruct (a <? 0) eqn:E; [lia|].
  rewrite !land_ones_mod, Z.shiftr_div_pow2 by lia. reflexivity.
Qed.

Lemma join_form lo hi w : 0 <= w -> double_dwords_to_pyint lo hi w = hi * 2 ^ w + lo.
Proof. intros. unfold double_dwords_to_pyint. rewrite Z.shiftl_mul_pow2 by lia. reflexivity. Qed.

Lemma split_join a w : 0 <= w -> 0 <= a < 2 ^ (2 * w) ->
  exists lo hi, pyint_to_double_dwords a w = Ok (lo, hi)
    /\ 0 <= lo < 2 ^ w /\ 0 <= hi < 2 ^ w
    /\ double_dwords_to_pyint lo hi w = a.
Proof.
  intros Hw [Ha Ha2]. exists (a mod 2 ^ w), ((a / 2 ^ w) mod 2 ^ w).
  assert (0 < 2 ^ w) as Hp by (apply Z.pow_pos_nonneg; lia).
  split; [apply split_form; lia|].
  split; [apply Z.mod_pos_bound; lia|].
  split; [apply Z.mod_pos_bound; lia|].
  rewrite join_form by lia.
  assert (2 ^ (2 * w) = 2 ^ w * 2 ^ w) as E.
  { replace (2 * w) with (w + w) by lia. rewrite Z.pow_add_r; lia. }
  rewrite (Z.mod_small (a / 2 ^ w)).
  - rewrite (Z.div_mod a (2 ^ w)) at 3 by lia. lia.
  - split; [apply Z.div_pos; lia|]. apply Z.div_lt_upper_bound; lia.
Qed.

Lemma join_split lo hi w : 0 <= w -> 0 <= lo < 2 ^ w -> 0 <= hi < 2 ^ w ->
  pyint_to_double_dwords (double_dwords_to_pyint lo hi w) w = Ok (lo, hi)
  /\ 0 <= double_dwords_to_pyint lo hi w < 2 ^ (2 * w).
Proof.
  intros Hw Hlo Hhi.
  assert (0 < 2 ^ w) as Hp by (apply Z.pow_pos_nonneg; lia).
  assert (2 ^ (2 * w) = 2 ^ w * 2 ^ w) as E.
  { replace (2 * w) with (w + w) by lia. rewrite Z.pow_add_r; lia. }
  rewrite join_form by lia. split.
  - rewrite split_form by nia.
    rewrite Z.add_comm, Z.mod_add, Z.div_add, Z.mod_small by lia.
    rewrite (Z.div_small lo) by lia. rewrite Z.add_0_l, Z.mod_small by lia. reflexivity.
  - nia.
Qed.

Lemma split_negative a w : a < 0 -> pyint_to_double_dwords a w = Err EValue.
Proof. intros. unfold pyint_to_double_dwords. destruct (a <? 0) eqn:E; [reflexivity|lia]. Qed.

Lemma split_overflow a w : 0 <= w -> 0 <= a ->
  exists lo hi, pyint_to_double_dwords a w = Ok (lo, hi)
    /\ double_dwords_to_pyint lo hi w = a mod 2 ^ (2 * w).
Proof.
  intros Hw Ha. eexists; eexists. split; [apply split_form; lia|].
  rewrite join_form by lia.
  assert (0 < 2 ^ w) as Hp by (apply Z.pow_pos_nonneg; lia).
  assert (2 ^ (2 * w) = 2 ^ w * 2 ^ w) as ->.
  { replace (2 * w) with (w + w) by lia. rewrite Z.pow_add_r; lia. }
  rewrite Z.rem_mul_r by lia. lia.
Qed.

Lemma signed_unsigned v w : 0 < w -> 0 <= v < 2 ^ w ->
  signed_to_unsigned (unsigned_to_signed v w) w = v
  /\ - 2 ^ (w - 1) <= unsigned_to_signed v w < 2 ^ (w - 1).
Proof.
  intros Hw Hv.
  assert (2 ^ w = 2 * 2 ^ (w - 1)) as E.
  { rewrite <- Z.pow_succ_r by lia. f_equal. lia. }
  unfold signed_to_unsigned, unsigned_to_signed.
  destruct (2 ^ (w - 1) <=? v) eqn:E1.
  - destruct (v - 2 ^ w <? 0) eqn:E2; lia.
  - destruct (v <? 0) eqn:E2; lia.
Qed.

Lemma unsigned_signed v w : 0 < w -> - 2 ^ (w - 1) <= v < 2 ^ (w - 1) ->
  unsigned_to_signed (signed_to_unsigned v w) w = v
  /\ 0 <= signed_to_unsigned v w < 2 ^ w.
Proof.
  intros Hw Hv.
  assert (2 ^ w = 2 * 2 ^ (w - 1)) as E.
  { rewrite <- Z.pow_succ_r by lia. f_equal. lia. }
  unfold signed_to_unsigned, unsigned_to_signed.
  destruct (v <? 0) eqn:E1.
  - destruct (2 ^ (w - 1) <=? v + 2 ^ w) eqn:E2; lia.
  - destruct (2 ^ (w - 1) <=? v) eqn:E2; lia.
Qed.

(** Joining signed representations: what the value becomes. *)
Lemma join_signed lo hi w : 0 < w -> 0 <= lo < 2 ^ w -> 0 <= hi < 2 ^ w ->
  (double_dwords_to_pyint (unsigned_to_signed lo w) (unsigned_to_signed hi w) w
   = double_dwords_to_pyint lo hi w
   <-> lo < 2 ^ (w - 1) /\ hi < 2 ^ (w - 1)).
Proof.
  intros Hw Hlo Hhi.
  assert (2 ^ w = 2 * 2 ^ (w - 1)) as E.
  { rewrite <- Z.pow_succ_r by lia. f_equal. lia. }
  assert (0 < 2 ^ (w - 1)) as Hp by (apply Z.pow_pos_nonneg; lia).
  rewrite !join_form by lia. unfold unsigned_to_signed.
  destruct (2 ^ (w - 1) <=? lo) eqn:E1, (2 ^ (w - 1) <=? hi) eqn:E2; nia.
Qed.

Lemma winerror_default e : (forall v, ~ In (e, v) error_mapping) -> winerror_to_errno e = 22.
Proof.
  unfold winerror_to_errno. generalize error_mapping 22. intros l d H.
  induction l as [|[k v] l IH]; simpl; auto.
  destruct (k =? e) eqn:E.
  - exfalso. apply (H v). left. f_equal; lia.
  - apply IH. intros v' Hv. apply (H v'). now right.
Qed.

Lemma winerror_known e v : In (e, v) error_mapping -> winerror_to_errno e = v.
Proof.
  unfold winerror_to_errno. generalize 22.
  assert (NoDup (map fst error_mapping)) as Hnd.
  { unfold error_mapping. cbn [map fst].
    repeat (constructor; [cbn [In]; lia|]). constructor. }
  revert Hnd. generalize error_mapping. intros l Hnd d Hin.
  induction l as [|[k v'] l IH]; simpl in *; [contradiction|].
  inversion Hnd as [|? ? Hn Hd]; subst.
  destruct Hin as [Hin|Hin].
  - injection Hin as -> ->. rewrite Z.eqb_refl. reflexivity.
  - destruct (k =? e) eqn:E; [|auto]. exfalso. apply Hn.
    apply Z.eqb_eq in E. subst. change e with (fst (e, v)). now apply in_map.
Qed.

(** Win32 ranges. *)
Lemma win32_range_exact length off :
  0 < length < 2 ^ 64 -> 0 <= off < 2 ^ 64 ->
  exists lo hi olo ohi,
    win32_convert_file_range_arguments (Some length) (Some off) = Ok (lo, hi, olo, ohi)
    /\ 0 <= lo < 2 ^ 32 /\ 0 <= hi < 2 ^ 32 /\ 0 <= olo < 2 ^ 32 /\ 0 <= ohi < 2 ^ 32
    /\ hi * 2 ^ 32 + lo = length /\ ohi * 2 ^ 32 + olo = off.
Proof.
  intros Hl Ho.
  destruct (split_join length 32) as (lo & hi & E & Hlo & Hhi & J); [lia|simpl; lia|].
  destruct (split_join off 32) as (olo & ohi & E' & Hlo' & Hhi' & J'); [lia|simpl; lia|].
  exists lo, hi, olo, ohi. unfold win32_convert_file_range_arguments.
  destruct (length =? 0) eqn:Z0; [lia|]. rewrite E, E'. rewrite join_form in J, J' by lia.
  repeat split; lia.
Qed.

Lemma win32_range_infinite length off :
  (length = None \/ length = Some 0) -> 0 <= off < 2 ^ 64 ->
  exists lo hi olo ohi,
    win32_convert_file_range_arguments length (Some off) = Ok (lo, hi, olo, ohi)
    /\ 0 <= lo < 2 ^ 32 /\ 0 <= hi < 2 ^ 32 /\ 0 <= olo < 2 ^ 32 /\ 0 <= ohi < 2 ^ 32
    /\ hi * 2 ^ 32 + lo = 2 ^ 64 - 1 /\ ohi * 2 ^ 32 + olo = off.
Proof.
  intros Hl Ho.
  destruct (split_join off 32) as (olo & ohi & E' & Hlo' & Hhi' & J'); [lia|simpl; lia|].
  rewrite join_form in J' by lia.
  exists MAX_DWORD, MAX_DWORD, olo, ohi. unfold win32_convert_file_range_arguments.
  destruct Hl as [-> | ->]; [|change (0 =? 0) with true; cbv iota];
    rewrite E'; unfold MAX_DWORD; repeat split; lia.
Qed.
